(** Lemmas behind the property theorems on running pipelines. *)
From Verif Require Import Py WorldModel WorldSpec WorldProofs WorldWait WorldStep WorldLive WorldHang.

(** ** Child events *)
Lemma exists_last_or_nil {A} (l : list A) : l = [] \/ exists h x, l = h ++ [x].
Proof. destruct l as [|a l]; [now left|]. right. destruct (exists_last (l := a :: l)) as [h [x E]]; [discriminate|]. eauto. Qed.
Lemma events_in_order mgr w i pid : reachable mgr w -> i < w_ni w -> i_kind (w_item w i) = KProc pid ->
  filter is_chld (i_seen (w_item w i)) = map (fun e => sigchld_info pid (status_word e)) (w_hist w i) /\
  (forall h e h', w_hist w i = h ++ e :: h' -> terminal e = true -> h' = []).
Proof.
  intros R Hi Hk. pose proof (KI_reach _ _ R) as K. split; [now apply (k_seen _ K)|].
  intros h e h' E Te. assert (G : forall l, Forall nonterm l -> ~ In e l).
  { intros l Hl X. rewrite Forall_forall in Hl. specialize (Hl e X). unfold nonterm in Hl. congruence. }
  destruct (k_fate _ K i pid Hi Hk) as [Ho|[h0 [e0 [H1 [H2 [H3 [H4 _]]]]]]].
  - destruct (k_kern _ K _ _ Ho) as [_ X]. exfalso. apply (G _ X). rewrite E. apply in_or_app. right. now left.
  - destruct (exists_last_or_nil h') as [->|[h1 [x ->]]]; [reflexivity|]. exfalso.
    rewrite H1 in E. replace (h ++ e :: h1 ++ [x]) with ((h ++ e :: h1) ++ [x]) in E by now rewrite <- app_assoc.
    apply app_inj_tail in E. destruct E as [E _]. apply (G _ H4). rewrite E. apply in_or_app. right. now left.
Qed.

(** The end of a process, once it happened, is kept until it is collected. *)
Definition ending (w : world) (pid : N) (i : nat) (e : child_event) : Prop :=
  w_kern w pid = KZombie i e \/ exists h, w_hist w i = h ++ [e].

Lemma start_items_kern p w0 : forall ss w used pid,
  (forall pid, ~ In pid used -> w_kern w pid = w_kern w0 pid) -> startable w0 used ss = true ->
  w_kern w0 pid <> KFree -> w_kern (fold_left (start_item p) ss w) pid = w_kern w pid.
Proof.
  induction ss as [|s ss IH]; intros w used pid Hu Hs Hf; cbn; [reflexivity|].
  destruct s as [q| |q]; cbn in Hs.
  - apply andb_true_iff in Hs. destruct Hs as [Hs Hs3]. apply andb_true_iff in Hs. destruct Hs as [Hs Hs2].
    apply andb_true_iff in Hs. destruct Hs as [Hs0 Hs1].
    rewrite (IH _ (q :: used)); [|intros q' Hq; cbn|exact Hs3|exact Hf].
    + cbn. apply updN_other. intros ->. destruct (w_kern w0 q); congruence.
    + rewrite updN_other by (intros ->; apply Hq; now left). apply Hu. intros X. apply Hq. now right.
  - now rewrite (IH _ used) by auto.
  - apply andb_true_iff in Hs. destruct Hs as [_ Hs]. now rewrite (IH _ used) by auto.
Qed.
Lemma start_kern w ss inter bad pid : startable w [] ss = true -> w_kern w pid <> KFree ->
  w_kern (do_start w ss inter bad) pid = w_kern w pid.
Proof.
  intros Hs Hf. unfold do_start. cbn [w_kern set_running]. rewrite (f_kern _ _ (frame_hf _ _)). cbn [w_kern set_pls].
  now apply (start_items_kern _ w _ _ []).
Qed.
Lemma reap_kern w pid i e c' : KI w -> owner (w_kern w pid) = Some i -> forall q,
  w_kern (dispatch (set_hist (set_kern w (updN (w_kern w) pid c')) (upd (w_hist w) i (w_hist w i ++ [e]))) (sigchld_info pid (status_word e))) q
   = updN (w_kern w) pid c' q /\
  w_hist (dispatch (set_hist (set_kern w (updN (w_kern w) pid c')) (upd (w_hist w) i (w_hist w i ++ [e]))) (sigchld_info pid (status_word e)))
   = upd (w_hist w) i (w_hist w i ++ [e]).
Proof.
  intros K Ho q. destruct (k_kern _ K _ _ Ho) as [Hin Hnt].
  rewrite dispatch_chld; [|apply K|reflexivity]. cbn [w_reg set_hist set_kern ssi_pid sigchld_info].
  rewrite (In_rfind _ _ _ (regok_NoDup _ (k_reg _ K)) Hin). unfold proc_event. destruct (N.eqb _ _); [|split; reflexivity].
  destruct (i_kind _); split; reflexivity.
Qed.
Lemma ending_step mgr w l w' pid i e : AI w -> terminal e = true -> i < w_ni w -> ending w pid i e -> step mgr w l = Some w' -> ending w' pid i e.
Proof.
  intros A Te Hi [Hz|[h Hh]] H.
  2:{ right. exists h. destruct (step_mono _ _ _ _ A H) as [M _]. rewrite (m_hist _ _ M i h e); auto. }
  assert (GF : forall w', frame w w' -> ending w' pid i e) by (intros w0 F; left; now rewrite (f_kern _ _ F)).
  destruct A as [K B J]. destruct l as [q ev| |q| |sender|j fl|j|t|ss inter bad|p|p|p]; cbn [step] in H.
  - destruct (w_kern w q) eqn:Eq; try discriminate. destruct (valid_event ev); [|discriminate]. injection H as <-. left. cbn.
    rewrite updN_other by congruence. exact Hz.
  - destruct (_ && _); [|discriminate]. injection H as <-. now left.
  - destruct (w_reaping w); [|discriminate]. destruct (w_kern w q) as [|j [ev|]|j ev] eqn:Eq; try discriminate; injection H as <-.
    + left. destruct (reap_kern w q j ev (KAlive j None) K) with (q := pid) as [-> _]; [now rewrite Eq|].
      rewrite updN_other by congruence. exact Hz.
    + destruct (reap_kern w q j ev KFree K) with (q := pid) as [X Y]; [now rewrite Eq|].
      destruct (N.eq_dec pid q) as [->|Hn].
      * right. exists (w_hist w i). rewrite Y. rewrite Hz in Eq. injection Eq as -> ->. now rewrite upd_same.
      * left. rewrite X, updN_other by congruence. exact Hz.
  - destruct (_ && _); [|discriminate]. injection H as <-. now left.
  - destruct (w_reaping w); [discriminate|]. destruct mgr; injection H as <-; [|now left].
    rewrite dispatch_tstp by (auto using k_reg; reflexivity). left.
    destruct (rfind _ _); [|now rewrite (f_kern _ _ (frame_stop_event w))].
    unfold proc_event. destruct (N.eqb _ _); [destruct (i_kind _)|]; cbn [w_kern set_reg set_item set_items]; now rewrite (f_kern _ _ (frame_stop_event w)).
  - destruct (w_reaping w); [discriminate|]. destruct (i_kind (w_item w j)) eqn:Ekd; try discriminate.
    destruct (i_done (w_item w j)) eqn:Ed; [discriminate|]. destruct (j <? w_ni w); [|discriminate]. injection H as <-. now left.
  - destruct (w_reaping w); [discriminate|]. destruct (j <? w_ni w); [|discriminate].
    assert (G : forall x, core x (w_item w j) -> frame w (set_item w j x)) by (intros x Hx; now apply frame_set_item).
    destruct (i_task (w_item w j)); destruct (i_kind (w_item w j)) eqn:Ekd; try discriminate;
      try (destruct (i_done (w_item w j)) as [[|]|] eqn:Ed; try discriminate); injection H as <-; apply GF;
      try (eapply frame_trans; [|apply frame_wait_begin]); try (eapply frame_trans; [|apply frame_hf]); apply G; repeat split; cbn; congruence.
  - destruct (w_reaping w); [discriminate|]. destruct (t <? w_nw w); [|discriminate].
    destruct (wt_phase (w_wt w t)); try discriminate. injection H as <-. apply GF, frame_wait_loop.
  - destruct (w_reaping w); [discriminate|]. destruct (startable w [] ss) eqn:Es; [|discriminate]. injection H as <-.
    left. rewrite start_kern; auto. congruence.
  - destruct (w_reaping w); [discriminate|]. destruct (p <? w_np w); [|discriminate]. injection H as <-. apply GF, frame_wait_begin.
  - destruct (w_reaping w); [discriminate|]. destruct (p <? w_np w); [|discriminate]. injection H as <-. apply GF, frame_suspend.
  - destruct (w_reaping w); [discriminate|]. destruct (p <? w_np w); [|discriminate]. injection H as <-. apply GF, frame_restart.
Qed.
Lemma ending_steps mgr pid i e : terminal e = true -> forall ls w w', AI w -> i < w_ni w -> ending w pid i e ->
  steps mgr w ls = Some w' -> ending w' pid i e.
Proof.
  intros Te. induction ls as [|l ls IH]; intros w w' A Hi Z H; cbn in H; [now injection H as <-|].
  destruct (step mgr w l) as [w1|] eqn:E; [|discriminate]. destruct (step_mono _ _ _ _ A E) as [_ [L _]].
  apply (IH w1); auto; [eapply AI_step; eauto|lia|eapply ending_step; eauto].
Qed.
Lemma alive_item mgr w pid i pend : reachable mgr w -> w_kern w pid = KAlive i pend -> i < w_ni w /\ i_kind (w_item w i) = KProc pid.
Proof.
  intros R H. pose proof (KI_reach _ _ R) as K. destruct (k_kern _ K pid i) as [A _]; [now rewrite H|].
  destruct (k_regitem _ K _ _ A) as [B [C _]]. auto.
Qed.
Lemma collected mgr w pid i pend e ls w' : reachable mgr w -> w_kern w pid = KAlive i pend -> terminal e = true ->
  steps mgr w (LChild pid e :: ls) = Some w' -> w_chld w' = false -> w_reaping w' = false -> exists h, w_hist w' i = h ++ [e].
Proof.
  intros R Hk Te H Hc Hr. cbn [steps] in H. destruct (step mgr w (LChild pid e)) as [w1|] eqn:E; [|discriminate].
  destruct (alive_item _ _ _ _ _ R Hk) as [Hi _]. pose proof (AI_step _ _ _ _ (AI_reach _ _ R) E) as A1.
  assert (Z : ending w1 pid i e).
  { left. cbn [step] in E. rewrite Hk in E. destruct (valid_event e); [|discriminate]. injection E as <-. cbn. rewrite updN_same, Te. reflexivity. }
  destruct (step_mono _ _ _ _ (AI_reach _ _ R) E) as [_ [L _]].
  pose proof (ending_steps mgr pid i e Te ls w1 w' A1 ltac:(lia) Z H) as [Z'|Z']; [|exact Z'].
  pose proof (AI_steps _ _ _ _ A1 H) as A'. destruct (k_pend _ (a_k _ A') pid); [now rewrite Z'|congruence|congruence].
Qed.
Lemma item_running_proc w i pid : i_kind (w_item w i) = KProc pid -> item_running w i = match i_done (w_item w i) with None => true | _ => false end.
Proof. intros H. unfold item_running. destruct (w_np w); cbn; now rewrite H. Qed.
Lemma exit_reported mgr w i pid c : reachable mgr w -> i < w_ni w -> i_kind (w_item w i) = KProc pid -> exited w i c ->
  item_running w i = false /\ exit_code w i = Some c.
Proof.
  intros R Hi Hk [h Hh]. pose proof (KI_reach _ _ R) as K. rewrite (item_running_proc _ _ _ Hk). unfold exit_code.
  destruct (k_fate _ K i pid Hi Hk) as [Ho|[h0 [e0 [H1 [H2 [H3 [H4 H5]]]]]]].
  - destruct (k_kern _ K _ _ Ho) as [_ X]. rewrite Hh in X. apply Forall_app in X. destruct X as [_ X]. inversion X; subst. discriminate.
  - rewrite Hh in H1. apply app_inj_tail in H1. destruct H1 as [_ <-]. destruct H5 as [H5 [x [H6 H7]]]. rewrite H5, H6. split; congruence.
Qed.
Lemma no_exit_lost mgr w pid i pend c ls w' : reachable mgr w -> w_kern w pid = KAlive i pend ->
  steps mgr w (LChild pid (CExit c) :: ls) = Some w' -> w_chld w' = false -> w_reaping w' = false ->
  item_running w' i = false /\ exit_code w' i = Some c.
Proof.
  intros R Hk H Hc Hr. destruct (alive_item _ _ _ _ _ R Hk) as [Hi Hkd].
  destruct (steps_mono _ _ _ _ (AI_reach _ _ R) H) as [M [L _]].
  eapply exit_reported; [eapply reachable_steps; eauto|lia|rewrite (m_kind _ _ M) by exact Hi; exact Hkd|].
  eapply collected; eauto.
Qed.
Lemma kill_unnoticed mgr w i pid : reachable mgr w -> i < w_ni w -> i_kind (w_item w i) = KProc pid -> killed w i -> item_running w i = true.
Proof.
  intros R Hi Hk [h [s [core Hh]]]. pose proof (KI_reach _ _ R) as K. rewrite (item_running_proc _ _ _ Hk).
  destruct (k_fate _ K i pid Hi Hk) as [Ho|[h0 [e0 [H1 [H2 [H3 [H4 H5]]]]]]].
  - destruct (k_kern _ K _ _ Ho) as [_ X]. rewrite Hh in X. apply Forall_app in X. destruct X as [_ X]. inversion X; subst. discriminate.
  - rewrite Hh in H1. apply app_inj_tail in H1. destruct H1 as [_ <-]. now rewrite H5.
Qed.
Lemma kill_forever mgr w i pid ls w' : reachable mgr w -> i < w_ni w -> i_kind (w_item w i) = KProc pid -> killed w i ->
  steps mgr w ls = Some w' -> item_running w' i = true.
Proof.
  intros R Hi Hk [h [s [core Hh]]] H. destruct (steps_mono _ _ _ _ (AI_reach _ _ R) H) as [M [L _]].
  eapply kill_unnoticed; [eapply reachable_steps; eauto|lia|rewrite (m_kind _ _ M) by exact Hi; exact Hk|].
  exists h, s, core. rewrite (m_hist _ _ M i h (CKill s core)); auto.
Qed.

(** ** Signals sent *)
Definition aimed (w : world) (k : kill) : Prop :=
  k_item k < w_ni w /\ i_kind (w_item w (k_item k)) = KProc (k_pid k) /\ k_reaped k = reaped w (k_item k).
(** [P]: which items were signalled. *)
Definition shot (P : nat -> Prop) (w w' : world) : Prop :=
  frame w w' /\ exists ks, w_kills w' = w_kills w ++ ks /\ Forall (fun k => aimed w k /\ P (k_item k)) ks.
Lemma aimed_frame w w' k : frame w w' -> aimed w' k -> aimed w k.
Proof.
  intros F [A [B C]]. rewrite (f_ni _ _ F) in A. destruct (f_item _ _ F (k_item k)) as [E _]. rewrite E in B.
  split; [exact A|]. split; [exact B|]. rewrite C. unfold reaped. now rewrite (f_hist _ _ F).
Qed.
Lemma shot_trans P a b c : shot P a b -> shot P b c -> shot P a c.
Proof.
  intros [F1 [k1 [E1 H1]]] [F2 [k2 [E2 H2]]]. split; [eapply frame_trans; eauto|]. exists (k1 ++ k2).
  split; [rewrite E2, E1; now rewrite app_assoc|]. apply Forall_app. split; [exact H1|].
  eapply Forall_impl; [|exact H2]. intros k [X Y]. split; [eapply aimed_frame; eauto|exact Y].
Qed.
Lemma shot_none P w w' : frame w w' -> w_kills w' = w_kills w -> shot P w w'.
Proof. intros F E. split; [exact F|]. exists []. rewrite app_nil_r. auto. Qed.
Lemma shot_signals (P : nat -> Prop) s : forall l w, (forall i, In i l -> i < w_ni w /\ P i) -> shot P w (fold_left (signal_item s) l w).
Proof.
  induction l as [|i l IH]; intros w Hl; cbn [fold_left]; [apply shot_none; auto using frame_refl|].
  eapply shot_trans; [|apply IH].
  - split; [apply frame_signal_item|]. unfold signal_item. destruct (i_kind (w_item w i)) eqn:E; [|exists []; rewrite app_nil_r; auto|exists []; rewrite app_nil_r; auto].
    exists [mkK i pid s (reaped w i)]. split; [reflexivity|]. constructor; [|constructor].
    destruct (Hl i (or_introl eq_refl)). split; [|auto]. repeat split; auto.
  - intros j Hj. destruct (Hl j (or_intror Hj)). rewrite (f_ni _ _ (frame_signal_item s w i)). auto.
Qed.
Lemma shot_pl (P : nat -> Prop) s w p b : BI w -> (forall i, In i (p_items (w_pl w p)) -> P i) ->
  shot P w (fold_left (signal_item s) (p_items (w_pl w p)) (set_susp w p b)).
Proof.
  intros B H. eapply shot_trans; [apply (shot_none _ w (set_susp w p b)); [apply frame_set_susp|reflexivity]|].
  apply shot_signals. intros i Hi. split; [now apply (b_items _ B) in Hi|auto].
Qed.
Lemma wake_kills w p : w_kills (wake w p) = w_kills w.
Proof. unfold wake. destruct (p_future _); reflexivity. Qed.
Lemma hf_kills w p : w_kills (handle_finish w p) = w_kills w.
Proof. unfold handle_finish. destruct (_ && _); [|apply wake_kills]. destruct (p_bad _); [reflexivity|]. now rewrite wake_kills. Qed.
Lemma shot_wait_loop (P : nat -> Prop) w t : BI w -> (forall i, In i (p_items (w_pl w (wt_pl (w_wt w t)))) -> P i) -> shot P w (wait_loop w t).
Proof.
  intros B H. pose proof (frame_wait_loop w t) as FW. revert FW. unfold wait_loop. set (p := wt_pl (w_wt w t)) in *. destruct (negb _ && _).
  - intros FW. now apply shot_none.
  - destruct (p_susp (w_pl w p)).
    + pose proof (shot_pl P SIGSTOP w p true B H) as SH. fold (pl_suspend w p) in SH.
      intros FW. eapply shot_trans; [exact SH|]. revert FW.
      set (w2 := set_wt (set_current (pl_suspend w p) None) t _).
      assert (F2 : frame (pl_suspend w p) w2) by (eapply frame_trans; [apply frame_set_current|apply frame_set_wt]).
      intros FW. destruct (wt_owner (w_wt w t)) as [j|]; [|now apply shot_none].
      apply shot_none; [|reflexivity]. eapply frame_trans; [exact F2|]. apply frame_set_item. repeat split.
    + assert (G : forall r, w_kills (set_wt (set_current w None) t (mkW p (WDone r) (wt_owner (w_wt w t)))) = w_kills w) by reflexivity.
      destruct (pl_failed w p); destruct (wt_owner (w_wt w t)); intros FW; apply shot_none; auto. rewrite hf_kills. reflexivity.
Qed.
Lemma shot_wait_begin (P : nat -> Prop) w p o : KI w -> BI w -> p < w_np w ->
  (forall i, o = Some i -> i < w_ni w /\ i_kind (w_item w i) = KFg p /\ i_task (w_item w i) = TWait /\ forall t, t < w_nw w -> wt_owner (w_wt w t) <> Some i) ->
  (forall i, In i (p_items (w_pl w p)) -> P i) -> shot P w (wait_begin w p o).
Proof.
  intros K B Hp Ho H. destruct (wait_begin_pre w p o K B Hp Ho) as [K3 [B3 [W3 [N3 [F3 J3]]]]].
  unfold wait_begin. set (w1 := set_wts _ _ _) in *. set (w2 := if p_inter (w_pl w1 p) then _ else _) in *. set (w3 := pl_restart w2 p) in *.
  assert (F2 : frame w w2).
  { assert (F1 : frame w w1) by (constructor; cbn; auto using incl_refl; intros; apply core_refl || apply pcore_refl).
    subst w2. destruct (p_inter _); [eapply frame_trans; [exact F1|apply frame_set_current]|exact F1]. }
  assert (E2 : w_kills w2 = w_kills w) by (subst w2; destruct (p_inter _); reflexivity).
  assert (P2 : w_pl w2 = w_pl w) by (subst w2; destruct (p_inter _); reflexivity).
  eapply shot_trans; [apply shot_none; [exact F2|exact E2]|]. eapply shot_trans.
  - instantiate (1 := w3). unfold w3, pl_restart. rewrite P2.
    eapply shot_trans; [apply (shot_none _ w2 (set_susp w2 p false)); [apply frame_set_susp|reflexivity]|].
    apply shot_signals. intros i Hi. split; [|auto]. cbn. rewrite (f_ni _ _ F2). now apply (b_items _ B) in Hi.
  - fold w3. apply shot_wait_loop; [exact B3|]. rewrite W3. cbn. rewrite upd_same. cbn.
    intros i Hi. apply H. destruct (f_pl _ _ F3 p) as [E _]. now rewrite <- E.
Qed.
Definition shotk (w w' : world) : Prop := exists ks, w_kills w' = w_kills w ++ ks /\ Forall (aimed w) ks.
Lemma shot_shotk P w w' : shot P w w' -> shotk w w'.
Proof. intros [_ [ks [E H]]]. exists ks. split; [exact E|]. eapply Forall_impl; [|exact H]. now intros k [X _]. Qed.
Lemma step_kills mgr w l w' : AI w -> step mgr w l = Some w' -> shotk w w'.
Proof.
  intros [K B J] H.
  assert (G0 : forall w', w_kills w' = w_kills w -> shotk w w') by (intros w0 E; exists []; rewrite app_nil_r; auto).
  destruct l as [q ev| |q| |sender|j fl|j|t|ss inter bad|p|p|p]; cbn [step] in H.
  - destruct (w_kern w q); try discriminate. destruct (valid_event ev); [|discriminate]. injection H as <-. now apply G0.
  - destruct (_ && _); [|discriminate]. injection H as <-. now apply G0.
  - destruct (w_reaping w); [|discriminate]. destruct (w_kern w q) as [|j [ev|]|j ev] eqn:Eq; try discriminate; injection H as <-;
      apply G0, kch_reap; auto; now rewrite Eq.
  - destruct (_ && _); [|discriminate]. injection H as <-. now apply G0.
  - destruct (w_reaping w); [discriminate|]. destruct mgr; injection H as <-; [|now apply G0]. apply G0.
    rewrite dispatch_tstp by (auto using k_reg; reflexivity).
    assert (E : w_kills (stop_event w) = w_kills w) by (unfold stop_event; destruct (w_current w); [|reflexivity]; destruct (p_future _); reflexivity).
    destruct (rfind _ _); [|exact E]. unfold proc_event. destruct (N.eqb _ _); [destruct (i_kind _)|]; exact E.
  - destruct (w_reaping w); [discriminate|]. destruct (i_kind (w_item w j)) eqn:Ekd; try discriminate.
    destruct (i_done (w_item w j)) eqn:Ed; [discriminate|]. destruct (j <? w_ni w); [|discriminate]. injection H as <-. now apply G0.
  - destruct (w_reaping w); [discriminate|]. destruct (Nat.ltb_spec j (w_ni w)) as [Lj|]; [|discriminate].
    destruct (i_task (w_item w j)) eqn:Et; destruct (i_kind (w_item w j)) eqn:Ekd; try discriminate; try (injection H as <-);
      try (destruct (i_done (w_item w j)) as [[|]|] eqn:Ed; try discriminate; injection H as <-;
      apply G0; rewrite ?hf_kills; reflexivity).
    set (w1 := set_item w j _).
    assert (F1 : frame w w1) by (apply frame_set_item; repeat split; cbn; congruence).
    assert (B1 : BI w1).
    { subst w1. rewrite <- Ekd. eapply BI_fg_item; eauto; [discriminate|]. intros t Ht Ho. destruct (wt_phase (w_wt w t)); auto. }
    eapply shot_shotk. eapply shot_trans; [apply (shot_none (fun _ => True)); [exact F1|reflexivity]|].
    apply shot_wait_begin; auto; [eapply KI_frame; eauto| |].
    + change (w_np w1) with (w_np w). pose proof (b_fg _ B j pl Lj Ekd). pose proof (b_ipl _ B j Lj). lia.
    + intros i X. injection X as <-. subst w1. cbn -[Nat.ltb]. rewrite upd_same. cbn. repeat split; auto.
      intros t Ht. now apply (b_new _ B).
  - destruct (w_reaping w); [discriminate|]. destruct (t <? w_nw w); [|discriminate].
    destruct (wt_phase (w_wt w t)); try discriminate. injection H as <-. eapply shot_shotk. now apply (shot_wait_loop (fun _ => True)).
  - destruct (w_reaping w); [discriminate|]. destruct (startable w [] ss) eqn:Es; [|discriminate]. injection H as <-.
    apply G0. apply (s_kills _ _ _ _ (start_started w ss inter bad B)).
  - destruct (w_reaping w); [discriminate|]. destruct (Nat.ltb_spec p (w_np w)); [|discriminate]. injection H as <-.
    eapply shot_shotk. apply (shot_wait_begin (fun _ => True)); auto. discriminate.
  - destruct (w_reaping w); [discriminate|]. destruct (p <? w_np w); [|discriminate]. injection H as <-. eapply shot_shotk. now apply (shot_pl (fun _ => True)).
  - destruct (w_reaping w); [discriminate|]. destruct (p <? w_np w); [|discriminate]. injection H as <-. eapply shot_shotk. now apply (shot_pl (fun _ => True)).
Qed.
Lemma not_reaped_owner w i pid : KI w -> i < w_ni w -> i_kind (w_item w i) = KProc pid -> reaped w i = false -> owner (w_kern w pid) = Some i.
Proof.
  intros K Hi Hk Hr. destruct (k_fate _ K i pid Hi Hk) as [Ho|[h [e [H1 [H2 _]]]]]; [exact Ho|]. exfalso.
  unfold reaped in Hr. rewrite H1, existsb_app in Hr. cbn in Hr. destruct e; try discriminate H2; cbn in Hr; rewrite Bool.orb_true_r in Hr; discriminate.
Qed.
(** Every signal sent to a process that has not been collected hits that process. *)
Lemma signals_on_target mgr w l w' : reachable mgr w -> step mgr w l = Some w' ->
  exists ks, w_kills w' = w_kills w ++ ks /\
    forall k, In k ks -> k_reaped k = false -> owner (w_kern w (k_pid k)) = Some (k_item k).
Proof.
  intros R H. pose proof (AI_reach _ _ R) as A. destruct (step_kills _ _ _ _ A H) as [ks [E F]]. exists ks. split; [exact E|].
  intros k Hk Hr. rewrite Forall_forall in F. destruct (F k Hk) as [X [Y Z]]. apply not_reaped_owner; auto; [apply A|congruence].
Qed.
(** The job control calls signal the processes of the named pipeline only. *)
Lemma signals_own mgr w p l w' : reachable mgr w -> l = LWait p \/ l = LRestart p \/ l = LSuspend p -> step mgr w l = Some w' ->
  exists ks, w_kills w' = w_kills w ++ ks /\ forall k, In k ks -> In (k_item k) (p_items (w_pl w p)) /\ i_kind (w_item w (k_item k)) = KProc (k_pid k).
Proof.
  intros R Hl H. destruct (AI_reach _ _ R) as [K B J].
  assert (G : shot (fun i => In i (p_items (w_pl w p))) w w' ->
    exists ks, w_kills w' = w_kills w ++ ks /\ forall k, In k ks -> In (k_item k) (p_items (w_pl w p)) /\ i_kind (w_item w (k_item k)) = KProc (k_pid k)).
  { intros [_ [ks [E F]]]. exists ks. split; [exact E|]. intros k Hk. rewrite Forall_forall in F. destruct (F k Hk) as [[X [Y Z]] Q]. auto. }
  apply G. destruct Hl as [-> | [-> | -> ] ]; cbn [step] in H; (destruct (w_reaping w); [discriminate|]);
    destruct (Nat.ltb_spec p (w_np w)); try discriminate; injection H as <-.
  - apply shot_wait_begin; auto; discriminate.
  - now apply shot_pl.
  - now apply shot_pl.
Qed.
Lemma signals_sent_new s l : forall w i pid, In i l -> i_kind (w_item w i) = KProc pid ->
  exists a b, w_kills (fold_left (signal_item s) l w) = w_kills w ++ a ++ mkK i pid s (reaped w i) :: b.
Proof.
  intros w i pid Hi Hk. apply in_split in Hi. destruct Hi as [l1 [l2 ->]]. rewrite fold_left_app. cbn [fold_left].
  set (w1 := fold_left (signal_item s) l1 w). pose proof (frame_signals s l1 w) as F1. fold w1 in F1.
  assert (A : exists a, w_kills w1 = w_kills w ++ a).
  { subst w1. clear. revert w. induction l1 as [|j l1 IH]; intros w; cbn; [exists []; now rewrite app_nil_r|].
    destruct (IH (signal_item s w j)) as [a ->]. unfold signal_item. destruct (i_kind (w_item w j)); eauto.
    cbn. rewrite <- app_assoc. eauto. }
  destruct A as [a Ea]. exists a.
  set (w2 := signal_item s w1 i).
  assert (E2 : w_kills w2 = w_kills w1 ++ [mkK i pid s (reaped w i)]).
  { subst w2. unfold signal_item. destruct (f_item _ _ F1 i) as [E _]. rewrite E, Hk. cbn. unfold reaped. now rewrite (f_hist _ _ F1). }
  assert (A : exists b, w_kills (fold_left (signal_item s) l2 w2) = w_kills w2 ++ b).
  { clear. generalize w2 as w0. induction l2 as [|j l2 IH]; intros w0; cbn; [exists []; now rewrite app_nil_r|].
    destruct (IH (signal_item s w0 j)) as [b ->]. unfold signal_item. destruct (i_kind (w_item w0 j)); eauto.
    cbn. rewrite <- app_assoc. eauto. }
  destruct A as [b Eb]. exists b. rewrite Eb, E2, Ea. now rewrite <- !app_assoc.
Qed.
Lemma wait_loop_kills w t : exists b, w_kills (wait_loop w t) = w_kills w ++ b.
Proof.
  unfold wait_loop. set (p := wt_pl (w_wt w t)). destruct (_ && _); [exists []; now rewrite app_nil_r|].
  destruct (p_susp (w_pl w p)).
  - assert (A : exists b, w_kills (pl_suspend w p) = w_kills w ++ b).
    { unfold pl_suspend. assert (G : forall l w0, exists b, w_kills (fold_left (signal_item SIGSTOP) l w0) = w_kills w0 ++ b).
      { induction l as [|j l IH]; intros w0; cbn; [exists []; now rewrite app_nil_r|].
        destruct (IH (signal_item SIGSTOP w0 j)) as [b ->]. unfold signal_item. destruct (i_kind (w_item w0 j)); eauto. cbn. rewrite <- app_assoc. eauto. }
      destruct (G (p_items (w_pl w p)) (set_susp w p true)) as [b Eb]. exists b. exact Eb. }
    destruct A as [b Eb]. exists b. destruct (wt_owner (w_wt w t)); exact Eb.
  - exists []. rewrite app_nil_r. destruct (pl_failed w p); destruct (wt_owner (w_wt w t)); rewrite ?hf_kills; reflexivity.
Qed.
Lemma sent_to_reaped mgr w p l w' i pid : reachable mgr w -> l = LWait p \/ l = LRestart p \/ l = LSuspend p -> step mgr w l = Some w' ->
  In i (p_items (w_pl w p)) -> i_kind (w_item w i) = KProc pid -> reaped w i = true ->
  exists ks k, w_kills w' = w_kills w ++ ks /\ In k ks /\ k_item k = i /\ k_pid k = pid /\ k_reaped k = true.
Proof.
  intros R Hl H Hi Hk Hr.
  destruct Hl as [-> | [-> | -> ] ]; cbn [step] in H; (destruct (w_reaping w); [discriminate|]);
    destruct (Nat.ltb_spec p (w_np w)); try discriminate; injection H as <-.
  - unfold wait_begin. set (w1 := set_wts _ _ _). set (w2 := if p_inter (w_pl w1 p) then _ else _).
    assert (A : w_kills w2 = w_kills w /\ w_pl w2 = w_pl w /\ w_item w2 = w_item w /\ w_hist w2 = w_hist w) by (subst w2; destruct (p_inter _); repeat split).
    destruct A as [A1 [A2 [A3 A4]]].
    destruct (signals_sent_new SIGCONT (p_items (w_pl w2 p)) (set_susp w2 p false) i pid) as [a [b E]]; [now rewrite A2|cbn; now rewrite A3|].
    destruct (wait_loop_kills (pl_restart w2 p) (w_nw w)) as [c Ec]. fold (pl_restart w2 p) in E. rewrite Ec, E. cbn [w_kills set_susp set_pl set_pls]. rewrite A1.
    eexists. eexists. split; [rewrite <- app_assoc; reflexivity|]. split; [apply in_or_app; left; apply in_or_app; right; left; reflexivity|].
    cbn. repeat split. unfold reaped in *. cbn. now rewrite A4.
  - destruct (signals_sent_new SIGCONT (p_items (w_pl w p)) (set_susp w p false) i pid Hi Hk) as [a [b E]].
    eexists. eexists. split; [exact E|]. split; [apply in_or_app; right; left; reflexivity|]. cbn. auto.
  - destruct (signals_sent_new SIGSTOP (p_items (w_pl w p)) (set_susp w p true) i pid Hi Hk) as [a [b E]].
    eexists. eexists. split; [exact E|]. split; [apply in_or_app; right; left; reflexivity|]. cbn. auto.
Qed.

(** ** A wait() that has ended stays ended *)
Lemma done_forever mgr : forall ls w w' t r, AI w -> t < w_nw w -> wt_phase (w_wt w t) = WDone r -> steps mgr w ls = Some w' ->
  w_wt w' t = w_wt w t.
Proof.
  induction ls as [|l ls IH]; intros w w' t r A Ht Hp H; cbn in H; [now injection H as <-|].
  destruct (step mgr w l) as [w1|] eqn:E; [|discriminate].
  assert (NF : forall p, p_future (w_pl w p) <> Some t).
  { intros p X. destruct (b_fut _ (a_b _ A) _ _ X) as [_ [_ Y]]. congruence. }
  assert (C : calm t (w_np w) w w1).
  { eapply calm_step_gen; eauto; [left; split; [exact Ht|congruence]|]. apply hf_free_np; [apply A|exact NF]. }
  rewrite <- (c_wt _ _ _ _ C). apply (IH w1 w' t r); auto; [eapply AI_step; eauto|pose proof (c_nw _ _ _ _ C); lia|].
  now rewrite (c_wt _ _ _ _ C).
Qed.

(** ** CTRL-Z *)
Definition fore (w : world) (p t : nat) : Prop :=
  w_current w = Some p /\ t < w_nw w /\ wt_pl (w_wt w t) = p /\ wt_owner (w_wt w t) = None /\
  (p_future (w_pl w p) = Some t \/ wt_phase (w_wt w t) = WReady).
Lemma fore_wake w p t q : BI w -> fore w p t -> fore (wake w q) p t.
Proof.
  intros B [A1 [A2 [A3 [A4 A5]]]]. unfold wake. destruct (p_future (w_pl w q)) as [t'|] eqn:E; [|repeat split; auto].
  destruct (b_fut _ B _ _ E) as [_ [E1 _]].
  repeat split; cbn [w_current w_nw w_wt w_pl set_wt set_wts set_pl set_pls]; auto; unfold upd;
    destruct (Nat.eqb_spec t' t) as [<-|Hn]; cbn; auto.
  destruct A5 as [A5|A5]; [|auto]. left. destruct (Nat.eqb_spec q p) as [<-|]; [congruence|exact A5].
Qed.
Lemma fore_same w w' p t : fore w p t -> w_current w' = w_current w -> w_nw w' = w_nw w -> w_wt w' = w_wt w -> (forall q, p_future (w_pl w' q) = p_future (w_pl w q)) -> fore w' p t.
Proof. unfold fore. intros H -> -> -> E. now rewrite E. Qed.
Lemma fore_hf w p t q : BI w -> q < w_np w -> fore w p t -> fore (handle_finish w q) p t.
Proof.
  intros B Hq F. unfold handle_finish. destruct (negb (pl_running w q) && negb (p_finished (w_pl w q))) eqn:E; [|now apply fore_wake].
  apply andb_true_iff in E. destruct E as [E1 E2]. apply negb_true_iff in E1, E2.
  assert (G : forall x, p_future x = p_future (w_pl w q) -> fore (set_pl w q x) p t).
  { intros x Hx. eapply fore_same; eauto. intros q'. cbn. unfold upd. destruct (Nat.eqb_spec q q') as [<-|]; auto. }
  destruct (p_bad (w_pl w q)) eqn:Eb; [now apply G|].
  apply fore_wake.
  - pose proof (BI_finish w q (remove_first (w_running w) q) B Hq E2 E1) as X. rewrite Eb in X. exact (X eq_refl).
  - eapply fore_same; [apply (G (mkP (p_items (w_pl w q)) (p_future (w_pl w q)) (p_susp (w_pl w q)) true (p_inter (w_pl w q)) false (S (p_cleaned (w_pl w q))))); reflexivity|..]; try reflexivity.
Qed.
Lemma fore_signals w p t s q b : fore w p t -> fore (fold_left (signal_item s) (p_items (w_pl w q)) (set_susp w q b)) p t.
Proof.
  intros F. destruct (signals_same s (p_items (w_pl w q)) (set_susp w q b)) as [A [B [C [D E]]]].
  eapply fore_same; [exact F|rewrite E; reflexivity|rewrite B; reflexivity|rewrite A; reflexivity|].
  intros q'. rewrite C. cbn. unfold upd. destruct (Nat.eqb_spec q q') as [<-|]; reflexivity.
Qed.
Lemma fore_step mgr w l w' p t : AI w -> fore w p t -> quiet w t l -> step mgr w l = Some w' ->
  fore w' p t \/ exists r, wt_phase (w_wt w' t) = WDone r.
Proof.
  intros [K B J] F Q H. destruct l as [q ev| |q| |sender|j fl|j|t'|ss inter bad|q|q|q]; cbn [step] in H; cbn in Q; try contradiction.
  - destruct (w_kern w q); try discriminate. destruct (valid_event ev); [|discriminate]. injection H as <-. left. exact F.
  - destruct (_ && _); [|discriminate]. injection H as <-. left. exact F.
  - destruct (w_reaping w); [|discriminate].
    destruct (w_kern w q) as [|j [ev|]|j ev] eqn:Eq; try discriminate; injection H as <-; left;
      (match goal with |- fore ?w' _ _ => assert (KC : kch w w') by (apply kch_reap; auto; now rewrite Eq) end);
      eapply fore_same; try apply KC; auto; intros q'; now rewrite (kc_pl _ _ KC).
  - destruct (_ && _); [|discriminate]. injection H as <-. left. exact F.
  - destruct (w_reaping w); [discriminate|]. destruct (i_kind (w_item w j)) eqn:Ekd; try discriminate.
    destruct (i_done (w_item w j)) eqn:Ed; [discriminate|]. destruct (j <? w_ni w); [|discriminate]. injection H as <-. left. exact F.
  - destruct (w_reaping w); [discriminate|]. destruct (Nat.ltb_spec j (w_ni w)) as [Lj|]; [|discriminate]. left.
    pose proof (b_ipl _ B j Lj) as [Lp _].
    destruct (i_task (w_item w j)) eqn:Et; destruct (i_kind (w_item w j)) eqn:Ekd; try discriminate; try (now destruct (Q pl));
      (destruct (i_done (w_item w j)) as [[|]|] eqn:Ed; try discriminate); injection H as <-; try exact F;
      (apply fore_hf; [rewrite <- Ekd, <- Ed; apply BI_task; auto; rewrite Ekd; discriminate|exact Lp|exact F]).
  - subst t'. destruct (w_reaping w); [discriminate|]. destruct (Nat.ltb_spec t (w_nw w)) as [Lt|]; [|discriminate].
    destruct (wt_phase (w_wt w t)) eqn:Eph; try discriminate. injection H as <-.
    destruct F as [A1 [A2 [A3 [A4 A5]]]]. unfold wait_loop. rewrite A3, A4. destruct (_ && _).
    + left. unfold fore. cbn [w_current w_nw w_wt w_pl set_wt set_wts set_pl set_pls]. rewrite !upd_same. cbn. auto 6.
    + right. set (rr := if p_susp _ then _ else _). destruct rr as [w1 r]. exists r. cbn. rewrite upd_same. reflexivity.
  - destruct (w_reaping w); [discriminate|]. destruct (startable w [] ss) eqn:Es; [|discriminate]. injection H as <-. left.
    pose proof (start_started w ss inter bad B) as S. destruct F as [A1 [A2 [A3 [A4 A5]]]]. pose proof (b_cur _ B _ A1) as Hp.
    unfold fore. rewrite (s_cur _ _ _ _ S), (s_nw _ _ _ _ S), (s_wt _ _ _ _ S), (s_pl _ _ _ _ S) by lia. auto 6.
  - destruct (w_reaping w); [discriminate|]. destruct (q <? w_np w); [|discriminate]. injection H as <-. left. now apply fore_signals.
  - destruct (w_reaping w); [discriminate|]. destruct (q <? w_np w); [|discriminate]. injection H as <-. left. now apply fore_signals.
Qed.
Lemma quiet_is_steps mgr t w w' : quiet_steps mgr t w w' -> exists ls, steps mgr w ls = Some w'.
Proof.
  induction 1 as [w|w l w1 w2 Q S H [ls IH]]; [now exists []|]. exists (l :: ls). cbn. now rewrite S.
Qed.
Lemma fore_steps mgr p t w w' : quiet_steps mgr t w w' -> AI w -> fore w p t ->
  fore w' p t \/ exists r, wt_phase (w_wt w' t) = WDone r.
Proof.
  induction 1 as [w|w l w1 w2 Q S H IH]; intros A F; [now left|].
  pose proof (AI_step _ _ _ _ A S) as A1.
  destruct (fore_step _ _ _ _ _ _ A F Q S) as [F1|[r Hr]]; [now apply IH|]. right. exists r.
  destruct (quiet_is_steps _ _ _ _ H) as [ls Hls]. rewrite (done_forever mgr ls w1 w2 t r); auto.
  destruct F as [_ [Lt _]]. destruct (step_mono _ _ _ _ A S) as [_ [_ [_ L]]]. lia.
Qed.
Lemma fore_begin w p : p_inter (w_pl w p) = true -> pl_running w p = true -> fore (wait_begin w p None) p (w_nw w) /\ w_nw (wait_begin w p None) = S (w_nw w).
Proof.
  intros Hi Hr. pose proof (frame_wait_begin w p None) as FW. unfold wait_begin in *. set (w1 := set_wts _ _ _) in *.
  change (p_inter (w_pl w1 p)) with (p_inter (w_pl w p)) in *. rewrite Hi in *. set (w2 := set_current w1 (Some p)) in *.
  destruct (signals_same SIGCONT (p_items (w_pl w2 p)) (set_susp w2 p false)) as [A [B [C [D E]]]].
  pose proof (frame_restart w2 p) as F3. fold (pl_restart w2 p) in A, B, C, D, E. set (w3 := pl_restart w2 p) in *.
  assert (R3 : pl_running w3 p = true).
  { rewrite (frame_pl_running _ _ p F3). rewrite <- Hr. apply (frame_pl_running w w2).
    constructor; cbn; auto using incl_refl; intros; apply core_refl || apply pcore_refl. }
  assert (W3 : w_wt w3 (w_nw w) = mkW p WReady None) by (rewrite A; cbn; apply upd_same).
  unfold wait_loop. rewrite W3. cbn [wt_pl wt_owner].
  assert (P3 : p_susp (w_pl w3 p) = false) by (rewrite C; cbn; now rewrite upd_same). rewrite P3, R3. cbn [negb andb].
  unfold fore. cbn [w_current w_nw w_wt w_pl set_wt set_wts set_pl set_pls]. rewrite !upd_same. cbn [p_future wt_pl wt_owner wt_phase].
  rewrite E, B. cbn. repeat split; auto.
Qed.
Lemma tstp_resume w p t sender : AI w -> fore w p t -> w_reaping w = false ->
  exists w1 w2, step Signalfd w (LTstp sender) = Some w1 /\ step Signalfd w1 (LResume t) = Some w2 /\
    wt_phase (w_wt w2 t) = WDone RSuspended /\ stopped_all w2 p.
Proof.
  intros A F Hr. cbn [step]. rewrite Hr. eexists. 
  set (w1 := dispatch w _).
  assert (S1 : step Signalfd w (LTstp sender) = Some w1) by (cbn [step]; now rewrite Hr).
  pose proof (AI_step _ _ _ _ A S1) as A1. destruct F as [A0 [A2 [A3 [A4 A5]]]].
  assert (E1 : wt_phase (w_wt w1 t) = WReady /\ wt_pl (w_wt w1 t) = p /\ wt_owner (w_wt w1 t) = None /\ p_susp (w_pl w1 p) = true /\ w_nw w1 = w_nw w /\ w_reaping w1 = false).
  { assert (G : w_wt w1 = w_wt (stop_event w) /\ w_pl w1 = w_pl (stop_event w) /\ w_nw w1 = w_nw (stop_event w) /\ w_reaping w1 = w_reaping (stop_event w)).
    { subst w1. rewrite dispatch_tstp by (try apply A; reflexivity). destruct (rfind _ _); [|auto].
      unfold proc_event. destruct (N.eqb _ _); [destruct (i_kind _)|]; auto. }
    destruct G as [-> [-> [-> ->]]]. unfold stop_event. rewrite A0.
    destruct (p_future (w_pl w p)) as [t'|] eqn:Ef; cbn [w_wt w_pl w_nw w_reaping set_wt set_wts set_pl set_pls]; rewrite ?upd_same; cbn [p_susp].
    - destruct (Nat.eq_dec t t') as [<-|Hn]; [rewrite upd_same; cbn; auto 7|]. rewrite upd_other by exact Hn.
      destruct A5 as [A5|A5]; [congruence|auto 7].
    - destruct A5 as [A5|A5]; [congruence|auto 7]. }
  destruct E1 as [E1 [E2 [E3 [E4 [E5 E6]]]]].
  exists (wait_loop w1 t). split; [reflexivity|].
  assert (S2 : step Signalfd w1 (LResume t) = Some (wait_loop w1 t)).
  { cbn [step]. rewrite E6, E1. destruct (Nat.ltb_spec t (w_nw w1)); [reflexivity|lia]. }
  split; [exact S2|]. pose proof (AI_step _ _ _ _ A1 S2) as A2'.
  assert (D : w_wt (wait_loop w1 t) t = mkW p (WDone RSuspended) None).
  { unfold wait_loop. rewrite E2, E3, E4. cbn [negb andb]. cbn. now rewrite upd_same. }
  rewrite D. split; [reflexivity|]. pose proof (b_done _ (a_b _ A2') t RSuspended) as X. rewrite D in X. cbn in X. apply X; [|reflexivity].
  pose proof (f_nw _ _ (frame_wait_loop w1 t)). lia.
Qed.
Lemma ctrl_z w p w1 w2 sender : reachable Signalfd w -> p_inter (w_pl w p) = true -> pl_running w p = true ->
  step Signalfd w (LWait p) = Some w1 -> quiet_steps Signalfd (w_nw w) w1 w2 ->
  (forall r, wt_phase (w_wt w2 (w_nw w)) <> WDone r) -> w_reaping w2 = false ->
  exists w3 w4, step Signalfd w2 (LTstp sender) = Some w3 /\ step Signalfd w3 (LResume (w_nw w)) = Some w4 /\
    wt_phase (w_wt w4 (w_nw w)) = WDone RSuspended /\ stopped_all w4 p.
Proof.
  intros R Hi Hr S Q Hd Hg. pose proof (AI_step _ _ _ _ (AI_reach _ _ R) S) as A1.
  assert (F1 : fore w1 p (w_nw w)).
  { cbn [step] in S. destruct (w_reaping w); [discriminate|]. destruct (p <? w_np w); [|discriminate]. injection S as <-. now apply fore_begin. }
  destruct (fore_steps _ _ _ _ _ Q A1 F1) as [F2|[r X]]; [|now destruct (Hd r)].
  destruct (quiet_is_steps _ _ _ _ Q) as [ls Hls]. apply tstp_resume; auto. eapply AI_steps; eauto.
Qed.
(** With no current pipeline a CTRL-Z changes no pipeline and wakes nobody. *)
Lemma tstp_lost mgr w w' sender : reachable mgr w -> w_current w = None -> step mgr w (LTstp sender) = Some w' ->
  w_wt w' = w_wt w /\ w_pl w' = w_pl w /\ w_kills w' = w_kills w.
Proof.
  intros R Hc H. cbn [step] in H. destruct (w_reaping w); [discriminate|]. pose proof (KI_reach _ _ R) as K. destruct mgr; injection H as <-; [|auto].
  rewrite dispatch_tstp by (try apply K; reflexivity).
  assert (E : stop_event w = w) by (unfold stop_event; now rewrite Hc). rewrite E.
  destruct (rfind _ _); [|auto]. unfold proc_event. destruct (N.eqb _ _); [destruct (i_kind _)|]; auto.
Qed.
(** The end of any wait() leaves no current pipeline. *)
Lemma wait_end_resets mgr w t w' r : step mgr w (LResume t) = Some w' -> wt_phase (w_wt w' t) = WDone r -> w_current w' = None.
Proof.
  cbn [step]. destruct (w_reaping w); [discriminate|]. destruct (t <? w_nw w); [|discriminate]. destruct (wt_phase (w_wt w t)); try discriminate.
  intros X. injection X as <-. unfold wait_loop. destruct (_ && _).
  - cbn. rewrite upd_same. discriminate.
  - intros _. set (rr := if p_susp _ then _ else _). destruct rr as [w1 r1]. destruct (wt_owner (w_wt w t)); [|reflexivity].
    destruct r1; [|reflexivity|reflexivity].
    match goal with |- w_current (handle_finish ?a ?b) = _ => destruct (hf_cur a b) as [-> _] end. reflexivity.
Qed.
(** ** No PipelineSuspended without a request *)
Lemma wake_nw w p : w_nw (wake w p) = w_nw w.
Proof. unfold wake. destruct (p_future _); reflexivity. Qed.
Lemma hf_nw w p : w_nw (handle_finish w p) = w_nw w.
Proof. unfold handle_finish. destruct (_ && _); [|apply wake_nw]. destruct (p_bad _); [reflexivity|]. now rewrite wake_nw. Qed.
Lemma signals_nw s w p b : w_nw (fold_left (signal_item s) (p_items (w_pl w p)) (set_susp w p b)) = w_nw w.
Proof. destruct (signals_same s (p_items (w_pl w p)) (set_susp w p b)) as [_ [-> _]]. reflexivity. Qed.
Lemma wait_loop_nw w t : w_nw (wait_loop w t) = w_nw w.
Proof.
  unfold wait_loop. destruct (_ && _); [reflexivity|]. destruct (p_susp _).
  - destruct (wt_owner _); cbn; apply signals_nw.
  - destruct (pl_failed _ _); destruct (wt_owner _); rewrite ?hf_nw; reflexivity.
Qed.
(** What a new wait() looks like after its first step. *)
Lemma wait_begin_new w p o : KI w -> BI w -> p < w_np w ->
  (forall i, o = Some i -> i < w_ni w /\ i_kind (w_item w i) = KFg p /\ i_task (w_item w i) = TWait /\ forall t, t < w_nw w -> wt_owner (w_wt w t) <> Some i) ->
  w_nw (wait_begin w p o) = S (w_nw w) /\ wt_pl (w_wt (wait_begin w p o) (w_nw w)) = p /\
  wt_phase (w_wt (wait_begin w p o) (w_nw w)) <> WDone RSuspended /\ p_susp (w_pl (wait_begin w p o) p) = false.
Proof.
  intros K B Hp Ho. destruct (wait_begin_pre w p o K B Hp Ho) as [K3 [B3 [W3 [N3 [F3 J3]]]]].
  unfold wait_begin. set (w1 := set_wts _ _ _) in *. set (w2 := if p_inter (w_pl w1 p) then _ else _) in *.
  destruct (signals_same SIGCONT (p_items (w_pl w2 p)) (set_susp w2 p false)) as [_ [_ [C _]]]. fold (pl_restart w2 p) in C.
  set (w3 := pl_restart w2 p) in *.
  assert (P3 : p_susp (w_pl w3 p) = false) by (rewrite C; cbn; now rewrite upd_same).
  assert (W : w_wt w3 (w_nw w) = mkW p WReady o) by (rewrite W3; cbn; apply upd_same).
  rewrite wait_loop_nw, N3. split; [reflexivity|].
  pose proof (nosusp_wait_loop w3 (w_nw w)) as N. destruct (n_wt _ _ N (w_nw w) ltac:(lia)) as [N1 N2]. rewrite W in N1, N2. cbn in N1, N2.
  split; [exact N1|]. split; [intros X; destruct (N2 X); congruence|]. now apply (n_susp _ _ N).
Qed.
Lemma step_new mgr w l w' t : AI w -> step mgr w l = Some w' -> w_nw w <= t < w_nw w' ->
  wt_phase (w_wt w' t) <> WDone RSuspended /\ p_susp (w_pl w' (wt_pl (w_wt w' t))) = false.
Proof.
  intros [K B J] H Ht.
  destruct l as [q ev| |q| |sender|j fl|j|t'|ss inter bad|q|q|q]; cbn [step] in H.
  - exfalso. destruct (w_kern w q); try discriminate. destruct (valid_event ev); [|discriminate]. injection H as <-. cbn in Ht. lia.
  - exfalso. destruct (_ && _); [|discriminate]. injection H as <-. cbn in Ht. lia.
  - exfalso. destruct (w_reaping w); [|discriminate].
    destruct (w_kern w q) as [|j [ev|]|j ev] eqn:Eq; try discriminate; injection H as <-;
      (match type of Ht with _ <= t < w_nw ?w' => assert (KC : kch w w') by (apply kch_reap; auto; now rewrite Eq) end);
      rewrite (kc_nw _ _ KC) in Ht; lia.
  - exfalso. destruct (_ && _); [|discriminate]. injection H as <-. cbn in Ht. lia.
  - exfalso. destruct (w_reaping w); [discriminate|]. destruct mgr; injection H as <-; [|cbn in Ht; lia].
    rewrite dispatch_tstp in Ht by (auto using k_reg; reflexivity).
    assert (E : w_nw (stop_event w) = w_nw w) by (unfold stop_event; destruct (w_current w); [|reflexivity]; destruct (p_future _); reflexivity).
    revert Ht. destruct (rfind _ _); [|lia]. unfold proc_event. destruct (N.eqb _ _); [destruct (i_kind _)|]; cbn; lia.
  - exfalso. destruct (w_reaping w); [discriminate|]. destruct (i_kind (w_item w j)) eqn:Ekd; try discriminate.
    destruct (i_done (w_item w j)) eqn:Ed; [discriminate|]. destruct (j <? w_ni w); [|discriminate]. injection H as <-. cbn in Ht. lia.
  - destruct (w_reaping w); [discriminate|]. destruct (Nat.ltb_spec j (w_ni w)) as [Lj|]; [|discriminate].
    destruct (i_task (w_item w j)) eqn:Et; destruct (i_kind (w_item w j)) eqn:Ekd; try discriminate; try (injection H as <-);
      try (exfalso; destruct (i_done (w_item w j)) as [[|]|] eqn:Ed; try discriminate; injection H as <-; rewrite ?hf_nw in Ht; cbn in Ht; lia).
    set (w1 := set_item w j _) in *.
    assert (F1 : frame w w1) by (apply frame_set_item; repeat split; cbn; congruence).
    assert (B1 : BI w1).
    { subst w1. rewrite <- Ekd. eapply BI_fg_item; eauto; [discriminate|]. intros t0 Ht0 Ho. destruct (wt_phase (w_wt w t0)); auto. }
    destruct (wait_begin_new w1 pl (Some j)) as [E1 [E2 [E3 E4]]]; auto; [eapply KI_frame; eauto| | |].
    + change (w_np w1) with (w_np w). pose proof (b_fg _ B j pl Lj Ekd). pose proof (b_ipl _ B j Lj). lia.
    + intros i X. injection X as <-. subst w1. cbn -[Nat.ltb]. rewrite upd_same. cbn. repeat split; auto.
      intros t0 Ht0. now apply (b_new _ B).
    + change (w_nw w1) with (w_nw w) in *. rewrite E1 in Ht. replace t with (w_nw w) by lia. rewrite E2. auto.
  - exfalso. destruct (w_reaping w); [discriminate|]. destruct (t' <? w_nw w); [|discriminate].
    destruct (wt_phase (w_wt w t')); try discriminate. injection H as <-. rewrite wait_loop_nw in Ht. lia.
  - exfalso. destruct (w_reaping w); [discriminate|]. destruct (startable w [] ss) eqn:Es; [|discriminate]. injection H as <-.
    rewrite (s_nw _ _ _ _ (start_started w ss inter bad B)) in Ht. lia.
  - destruct (w_reaping w); [discriminate|]. destruct (Nat.ltb_spec q (w_np w)); [|discriminate]. injection H as <-.
    destruct (wait_begin_new w q None) as [E1 [E2 [E3 E4]]]; auto; [discriminate|].
    rewrite E1 in Ht. replace t with (w_nw w) by lia. rewrite E2. auto.
  - exfalso. destruct (w_reaping w); [discriminate|]. destruct (q <? w_np w); [|discriminate]. injection H as <-. unfold pl_suspend in Ht. rewrite signals_nw in Ht. lia.
  - exfalso. destruct (w_reaping w); [discriminate|]. destruct (q <? w_np w); [|discriminate]. injection H as <-. unfold pl_restart in Ht. rewrite signals_nw in Ht. lia.
Qed.
Lemma new_not_suspended mgr w ls w' t : AI w -> Forall (unsuspending mgr) ls -> steps mgr w ls = Some w' -> w_nw w <= t < w_nw w' ->
  wt_phase (w_wt w' t) <> WDone RSuspended.
Proof.
  revert w. induction ls as [|l ls IH]; intros w A U H Ht; cbn in H; [injection H as <-; lia|].
  destruct (step mgr w l) as [w1|] eqn:E; [|discriminate]. inversion U; subst. pose proof (AI_step _ _ _ _ A E) as A1.
  destruct (Nat.lt_ge_cases t (w_nw w1)) as [L|L]; [|apply (IH w1); auto; lia].
  destruct (step_new _ _ _ _ t A E ltac:(lia)) as [N1 N2]. pose proof (nosusp_steps _ _ _ _ A1 H3 H) as N.
  intros X. destruct (n_wt _ _ N t L) as [_ Y]. destruct (Y X) as [Z|Z]; [exact (N1 Z)|congruence].
Qed.
(** A wait() begun at [w] (or later) ends with PipelineSuspended only if there
    was a CTRL-Z or a call of suspend() since. *)
Lemma suspended_asked mgr w p w1 ls w2 : reachable mgr w -> step mgr w (LWait p) = Some w1 -> steps mgr w1 ls = Some w2 ->
  wt_phase (w_wt w2 (w_nw w)) = WDone RSuspended -> exists l, In l ls /\ ((exists s, l = LTstp s) \/ exists q, l = LSuspend q).
Proof.
  intros R S H X.
  destruct (List.Exists_dec (fun l => match l with LTstp _ | LSuspend _ => True | _ => False end) ls) as [E|E].
  - intros l. destruct l; auto.
  - apply Exists_exists in E. destruct E as [l [Hl E]]. exists l. split; [exact Hl|]. destruct l; try contradiction; eauto.
  - exfalso. assert (U : Forall (unsuspending mgr) ls).
    { apply Forall_forall. intros l Hl. destruct l; cbn; auto; exfalso; apply E, Exists_exists; eexists; (split; [exact Hl|exact Logic.I]). }
    pose proof (AI_reach _ _ R) as A.
    refine (new_not_suspended mgr w (LWait p :: ls) w2 (w_nw w) A _ _ _ X); [constructor; [exact Logic.I|exact U]| |].
    + cbn [steps]. now rewrite S.
    + split; [lia|]. destruct (steps_mono _ _ _ _ (AI_step _ _ _ _ A S) H) as [_ [_ [_ L]]].
      cbn [step] in S. destruct (w_reaping w); [discriminate|]. destruct (Nat.ltb_spec p (w_np w)); [|discriminate]. injection S as <-.
      destruct (wait_begin_new w p None) as [E1 _]; [apply A|apply A|assumption|discriminate|lia].
Qed.
(** With the asyncio manager only suspend() can do it. *)
Lemma asyncio_no_suspend ls w t : steps Asyncio w_init ls = Some w -> (forall p, ~ In (LSuspend p) ls) -> t < w_nw w ->
  wt_phase (w_wt w t) <> WDone RSuspended.
Proof.
  intros H Hs Ht. eapply (new_not_suspended Asyncio w_init ls); eauto using AI_init; [|cbn; lia].
  apply Forall_forall. intros l Hl. destruct l; cbn; auto. now apply (Hs p).
Qed.

(** ** Waiters that are woken, and waiters that are not *)
Lemma exited_not_alive w i pid c pend : KI w -> exited w i c -> w_kern w pid = KAlive i pend -> False.
Proof.
  intros K [h Hh] Ho. destruct (k_kern _ K pid i) as [_ X]; [now rewrite Ho|]. rewrite Hh in X. apply Forall_app in X.
  destruct X as [_ X]. inversion X; subst. discriminate.
Qed.
Lemma waiter_returns mgr w t : xreach mgr w -> quiescent mgr w -> t < w_nw w ->
  let p := wt_pl (w_wt w t) in plain w p -> p_bad (w_pl w p) = false ->
  (forall i, In i (p_items (w_pl w p)) -> ended_well w i) -> exists r, wt_phase (w_wt w t) = WDone r.
Proof.
  intros X Q Ht p Pl Hb He. destruct (waiting_for mgr w t X Q Ht Pl Hb) as [H|[i [Hi H]]]; [exact H|]. exfalso.
  pose proof (KI_reach _ _ (xreach_reachable _ _ X)) as K. specialize (He i Hi). unfold ended_well in He.
  destruct (i_kind (w_item w i)) eqn:Ek; [|congruence|congruence]. destruct He as [c He].
  destruct H as [[pend H]|[h [s [co H]]]]; [eapply exited_not_alive; eauto|]. destruct He as [h' He]. rewrite He in H.
  apply app_inj_tail in H. destruct H. discriminate.
Qed.
Lemma wait_begin_running w p : pl_running w p = true ->
  (forall t, t <> w_nw w -> w_wt (wait_begin w p None) t = w_wt w t) /\
  p_future (w_pl (wait_begin w p None) p) = Some (w_nw w) /\
  (forall q, q <> p -> p_future (w_pl (wait_begin w p None) q) = p_future (w_pl w q)) /\
  w_nw (wait_begin w p None) = S (w_nw w).
Proof.
  intros Hr. unfold wait_begin in *. set (w1 := set_wts _ _ _) in *.
  set (w2 := if p_inter (w_pl w1 p) then _ else _) in *.
  assert (H2 : w_wt w2 = w_wt w1 /\ w_pl w2 = w_pl w /\ w_nw w2 = S (w_nw w) /\ frame w w2).
  { assert (F1 : frame w w1) by (constructor; cbn; auto using incl_refl; intros; apply core_refl || apply pcore_refl).
    subst w2. destruct (p_inter _); repeat split; auto; apply F1. }
  destruct H2 as [H21 [H22 [H23 H24]]].
  destruct (signals_same SIGCONT (p_items (w_pl w2 p)) (set_susp w2 p false)) as [A [B [C [D E]]]].
  pose proof (frame_restart w2 p) as F3. fold (pl_restart w2 p) in A, B, C, D, E. set (w3 := pl_restart w2 p) in *.
  assert (R3 : pl_running w3 p = true) by (now rewrite (frame_pl_running _ _ p F3), (frame_pl_running _ _ p H24)).
  assert (W3 : w_wt w3 = w_wt w1) by (rewrite A; exact H21).
  assert (W4 : w_wt w3 (w_nw w) = mkW p WReady None) by (rewrite W3; cbn; apply upd_same).
  unfold wait_loop. rewrite W4. cbn [wt_pl wt_owner].
  assert (P3 : p_susp (w_pl w3 p) = false) by (rewrite C; cbn; now rewrite upd_same). rewrite P3, R3. cbn [negb andb].
  cbn [w_current w_nw w_wt w_pl set_wt set_wts set_pl set_pls]. rewrite !upd_same. cbn [p_future].
  split; [|split; [reflexivity|split]].
  - intros t Ht. rewrite upd_other by exact Ht. rewrite W3. cbn. now rewrite upd_other.
  - intros q Hq. rewrite upd_other by exact Hq. rewrite C. cbn. rewrite upd_other by exact Hq. now rewrite H22.
  - rewrite B. exact H23.
Qed.
Lemma second_wait mgr w t p w1 ls w2 : reachable mgr w -> t < w_nw w -> wt_pl (w_wt w t) = p -> wt_phase (w_wt w t) = WWait ->
  pl_running w p = true -> step mgr w (LWait p) = Some w1 -> steps mgr w1 ls = Some w2 -> wt_phase (w_wt w2 t) = WWait.
Proof.
  intros R Ht Hp Hw Hr S H. pose proof (AI_reach _ _ R) as A. pose proof (AI_step _ _ _ _ A S) as A1.
  cbn [step] in S. destruct (w_reaping w); [discriminate|]. destruct (Nat.ltb_spec p (w_np w)); [|discriminate]. injection S as <-.
  destruct (wait_begin_running w p Hr) as [X1 [X2 [X3 X4]]].
  eapply stuck_forever; [exact A1| | | |exact H].
  - rewrite X4. lia.
  - rewrite X1 by lia. exact Hw.
  - intros q Hq. destruct (Nat.eq_dec q p) as [->|Hn].
    + rewrite X2 in Hq. injection Hq as Hq. lia.
    + rewrite X3 in Hq by exact Hn. destruct (b_fut _ (a_b _ A) _ _ Hq) as [_ [Y _]]. congruence.
Qed.
Lemma killed_never_returns mgr w i p ls w' t r : reachable mgr w -> In i (p_items (w_pl w p)) -> is_proc w i -> killed w i ->
  steps mgr w ls = Some w' -> t < w_nw w' -> wt_pl (w_wt w' t) = p -> wt_phase (w_wt w' t) = WDone r -> r = RSuspended.
Proof.
  intros R Hi [pid Hk] [h [s [co Hh]]] H Ht Hp Hd. pose proof (AI_reach _ _ R) as A. pose proof (AI_steps _ _ _ _ A H) as A'.
  destruct (steps_mono _ _ _ _ A H) as [M [L1 [L2 _]]]. destruct (b_items _ (a_b _ A) _ _ Hi) as [Li Hpl].
  assert (Lp : p < w_np w) by (pose proof (b_ipl _ (a_b _ A) i Li); lia).
  assert (Hi' : In i (p_items (w_pl w' p))) by now rewrite (m_items _ _ M p Lp).
  assert (Hk' : i_kind (w_item w' i) = KProc pid) by now rewrite (m_kind _ _ M i Li).
  assert (Hh' : w_hist w' i = h ++ [CKill s co]) by (rewrite (m_hist _ _ M i h (CKill s co)); auto).
  pose proof (b_done _ (a_b _ A') t r Ht Hd) as D. rewrite Hp in D. destruct r; cbn in D; [| |reflexivity]; exfalso.
  - specialize (D i Hi'). inversion D as [? X|? q X]; subst; [|congruence]. unfold succeeded in X. rewrite Hk' in X. destruct X as [h0 X].
    rewrite Hh' in X. apply app_inj_tail in X. destruct X. discriminate.
  - destruct D as [D _]. specialize (D i Hi'). inversion D as [? X|? q X]; subst; [|congruence]. unfold finished in X. rewrite Hk' in X. destruct X as [h0 [c X]].
    rewrite Hh' in X. apply app_inj_tail in X. destruct X. discriminate.
Qed.

(** ** running_pipelines *)
Lemma listed_while_running mgr w p : reachable mgr w -> p < w_np w -> plain w p -> p_bad (w_pl w p) = false -> pl_running w p = true -> In p (w_running w).
Proof.
  intros R Hp Pl Hb Hr. destruct (AI_reach _ _ R) as [K B J].
  apply (b_run _ B p); auto.
  - intros E. unfold pl_running in Hr. rewrite E in Hr. discriminate.
  - destruct (p_finished (w_pl w p)) eqn:E; [|reflexivity]. rewrite (b_fin _ B p E Pl) in Hr. discriminate.
Qed.
Lemma unlisted_when_ended mgr w p : reachable mgr w -> quiescent mgr w -> p < w_np w -> plain w p -> p_bad (w_pl w p) = false ->
  p_items (w_pl w p) <> [] -> (forall i, In i (p_items (w_pl w p)) -> ended_well w i) -> ~ In p (w_running w).
Proof.
  intros R Q Hp Pl Hb Hne He. pose proof (AI_reach _ _ R) as A. destruct (quiescent_facts _ _ A Q) as [_ [_ [Nc [_ T]]]]. destruct A as [K B J].
  assert (E : all_ended w p).
  { intros i Hi. destruct (b_items _ B _ _ Hi) as [Li _]. specialize (He i Hi). specialize (Pl i Hi). specialize (T i Li). pose proof (b_task _ B i Li) as Tk.
    unfold ended_well in He. destruct (i_kind (w_item w i)) as [pid| |q] eqn:Ek; [| |contradiction].
    - destruct He as [c He]. assert (Hd : i_done (w_item w i) = Some false).
      { destruct (k_fate _ K i pid Li Ek) as [Ho|[h [e [H1 [H2 [H3 [H4 H5]]]]]]].
        - destruct (k_kern _ K _ _ Ho) as [_ X]. destruct He as [h0 He]. rewrite He in X. apply Forall_app in X. destruct X as [_ X]. inversion X; subst. discriminate.
        - destruct He as [h0 He]. rewrite He in H1. apply app_inj_tail in H1. destruct H1 as [_ <-]. now destruct H5. }
      specialize (Tk ltac:(discriminate)). destruct (i_task (w_item w i)); try contradiction; try congruence. specialize (T eq_refl). congruence.
    - specialize (Tk ltac:(discriminate)). destruct (i_task (w_item w i)); try contradiction; try congruence. specialize (T eq_refl). congruence. }
  destruct (J p Hne Pl Hb E) as [_ F]. intros X. apply (b_run _ B p) in X; auto. congruence.
Qed.
Lemma over_listed mgr : forall ls w w' p, AI w -> p < w_np w -> tasks_over w p -> In p (w_running w) ->
  steps mgr w ls = Some w' -> In p (w_running w').
Proof.
  induction ls as [|l ls IH]; intros w w' p A Hp Hi Hr H; cbn in H; [now injection H as <-|].
  destruct (step mgr w l) as [w1|] eqn:E; [|discriminate].
  assert (C : calm (S (w_nw w)) p w w1).
  { eapply calm_step; eauto.
    - intros i Li X. split; [|intros Y].
      + intros Z. destruct (b_fut _ (a_b _ A) _ _ Z) as [W _]. lia.
      + pose proof (b_ipl _ (a_b _ A) i Li) as [_ Z]. rewrite Y in Z. specialize (Hi i Z). unfold over in Hi. destruct Hi, X; congruence.
    - right. intros q _ Z. destruct (b_fut _ (a_b _ A) _ _ Z) as [W _]. lia. }
  destruct (step_mono _ _ _ _ A E) as [M L]. apply (IH w1 w' p); auto.
  - eapply AI_step; eauto.
  - lia.
  - eapply tasks_over_step; eauto.
  - now apply (c_run _ _ _ _ C).
Qed.
Lemma empty_listed mgr w inter bad w1 ls w2 : reachable mgr w -> step mgr w (LStart [] inter bad) = Some w1 -> steps mgr w1 ls = Some w2 ->
  pl_running w1 (w_np w) = false /\ In (w_np w) (w_running w2).
Proof.
  intros R S H. pose proof (AI_reach _ _ R) as A. pose proof (AI_step _ _ _ _ A S) as A1. cbn [step] in S.
  destruct (w_reaping w); [discriminate|]. cbn [startable] in S. injection S as <-.
  pose proof (start_started w [] inter bad (a_b _ A)) as T.
  destruct (s_this _ _ _ _ T) as [fin [it [E _]]]. split; [unfold pl_running; now rewrite E|].
  eapply empty_forever; [exact A1| | | |exact H].
  - rewrite (s_np _ _ _ _ T). lia.
  - now rewrite E.
  - rewrite (s_run _ _ _ _ T). apply in_or_app. right. now left.
Qed.
Lemma results_truthful mgr w t r : reachable mgr w -> t < w_nw w -> wt_phase (w_wt w t) = WDone r -> result_ok w (wt_pl (w_wt w t)) r.
Proof. intros R Ht H. now apply (b_done _ (a_b _ (AI_reach _ _ R))). Qed.
Lemma cleaned_once mgr w p : reachable mgr w -> p_cleaned (w_pl w p) <= 1 /\ (p_cleaned (w_pl w p) = 1 -> plain w p -> pl_running w p = false).
Proof.
  intros R. destruct (AI_reach _ _ R) as [K B J]. rewrite (b_clean _ B). destruct (p_finished (w_pl w p)) eqn:E; split; try lia; try discriminate.
  intros _ Pl. now apply (b_fin _ B).
Qed.
