(** Invariants of pipelines and waiters. *)
From Verif Require Import Py WorldModel WorldSpec WorldProofs.

Definition result_ok (w : world) (p : nat) (r : wres) : Prop :=
  match r with
  | ROk => forall i, In i (p_items (w_pl w p)) -> all_succeeded w i
  | RFailed => (forall i, In i (p_items (w_pl w p)) -> all_finished w i) /\ exists i, In i (p_items (w_pl w p)) /\ some_failed w i
  | RSuspended => stopped_all w p
  end.
Definition all_ended (w : world) (p : nat) : Prop :=
  forall i, In i (p_items (w_pl w p)) -> i_task (w_item w i) = TEnded.

Record BI (w : world) : Prop := {
  b_fut : forall p t, p_future (w_pl w p) = Some t -> t < w_nw w /\ wt_pl (w_wt w t) = p /\ wt_phase (w_wt w t) = WWait;
  b_pl : forall p, w_np w <= p -> w_pl w p = no_pl;
  b_items : forall p i, In i (p_items (w_pl w p)) -> i < w_ni w /\ i_pl (w_item w i) = p;
  b_ipl : forall i, i < w_ni w -> i_pl (w_item w i) < w_np w /\ In i (p_items (w_pl w (i_pl (w_item w i))));
  b_fg : forall i q, i < w_ni w -> i_kind (w_item w i) = KFg q -> q < i_pl (w_item w i);
  b_wt : forall t, t < w_nw w -> wt_pl (w_wt w t) < w_np w;
  b_own : forall t i, t < w_nw w -> wt_owner (w_wt w t) = Some i ->
    i < w_ni w /\ i_kind (w_item w i) = KFg (wt_pl (w_wt w t)) /\
    match wt_phase (w_wt w t) with WDone _ => True | _ => i_task (w_item w i) = TWait end;
  b_own1 : forall t t' i, t < w_nw w -> t' < w_nw w -> wt_owner (w_wt w t) = Some i -> wt_owner (w_wt w t') = Some i -> t = t';
  b_new : forall i t, i_task (w_item w i) = TNew -> t < w_nw w -> wt_owner (w_wt w t) <> Some i;
  b_cur : forall p, w_current w = Some p -> p < w_np w;
  b_task : forall i, i < w_ni w -> (forall q, i_kind (w_item w i) <> KFg q) ->
    match i_task (w_item w i) with
    | TNew => False | TWait => True
    | TEnded => i_done (w_item w i) = Some false | TDead => i_done (w_item w i) = Some true end;
  b_done : forall t r, t < w_nw w -> wt_phase (w_wt w t) = WDone r -> result_ok w (wt_pl (w_wt w t)) r;
  b_wait : forall t, t < w_nw w -> wt_phase (w_wt w t) = WWait -> p_items (w_pl w (wt_pl (w_wt w t))) <> [];
  b_fin : forall p, p_finished (w_pl w p) = true -> plain w p -> pl_running w p = false;
  b_rnd : NoDup (w_running w);
  b_rnp : forall p, In p (w_running w) -> p < w_np w;
  b_run : forall p, p < w_np w -> p_items (w_pl w p) <> [] -> plain w p -> p_bad (w_pl w p) = false ->
    (In p (w_running w) <-> p_finished (w_pl w p) = false);
  b_clean : forall p, p_cleaned (w_pl w p) = if p_finished (w_pl w p) then 1 else 0 }.

Definition JI (w : world) : Prop :=
  forall p, p_items (w_pl w p) <> [] -> plain w p -> p_bad (w_pl w p) = false -> all_ended w p ->
    p_future (w_pl w p) = None /\ p_finished (w_pl w p) = true.

Lemma BI_init : BI w_init.
Proof.
  constructor; cbn; try discriminate; try lia; auto; try contradiction; try constructor; intros; try lia; try discriminate; try contradiction.
Qed.

(** Plain pipelines *)
Definition undone (w : world) (i : nat) : bool := match i_done (w_item w i) with None => true | _ => false end.
Lemma running_plain w i f : (match i_kind (w_item w i) with KFg _ => False | _ => True end) -> running_f f w i = undone w i.
Proof. unfold undone. destruct f; cbn; destruct (i_kind (w_item w i)); try contradiction; reflexivity. Qed.
Lemma existsb_ext_In {A} (f g : A -> bool) l : (forall x, In x l -> f x = g x) -> existsb f l = existsb g l.
Proof. intros H. induction l as [|x l IH]; cbn; [reflexivity|]. rewrite H, IH; cbn; auto. intros y Hy. apply H. now right. Qed.
Lemma pl_running_plain w p : plain w p -> pl_running w p = existsb (undone w) (p_items (w_pl w p)).
Proof. intros H. apply existsb_ext_In. intros i Hi. apply running_plain. now apply H. Qed.
Lemma existsb_false {A} (f : A -> bool) l : existsb f l = false <-> forall x, In x l -> f x = false.
Proof.
  split.
  - intros H x Hx. destruct (f x) eqn:E; [|reflexivity]. rewrite <- Bool.not_true_iff_false in H. destruct H. apply existsb_exists. eauto.
  - intros H. apply Bool.not_true_iff_false. intros X. apply existsb_exists in X. destruct X as [x [A1 A2]]. rewrite H in A2; congruence.
Qed.
Lemma not_running_plain w p : plain w p -> pl_running w p = false <-> forall i, In i (p_items (w_pl w p)) -> i_done (w_item w i) <> None.
Proof.
  intros H. rewrite pl_running_plain, existsb_false by exact H. unfold undone.
  split; intros X i Hi; specialize (X i Hi); destruct (i_done (w_item w i)); congruence.
Qed.
Lemma plain_frame w w' p : frame w w' -> plain w p <-> plain w' p.
Proof.
  intros F. unfold plain. destruct (f_pl _ _ F p) as [E _]. rewrite E.
  split; intros H i Hi; specialize (H i Hi); destruct (f_item _ _ F i) as [K _]; [rewrite K|rewrite K in H]; exact H.
Qed.

(** Results stay true. *)
Record mono (w w' : world) : Prop := {
  m_kind : forall i, i < w_ni w -> i_kind (w_item w' i) = i_kind (w_item w i);
  m_done : forall i b, i < w_ni w -> i_done (w_item w i) = Some b -> i_done (w_item w' i) = Some b;
  m_hist : forall i h e, i < w_ni w -> w_hist w i = h ++ [e] -> terminal e = true -> w_hist w' i = w_hist w i;
  m_items : forall p, p < w_np w -> p_items (w_pl w' p) = p_items (w_pl w p);
  m_kills : incl (w_kills w) (w_kills w') }.
Lemma mono_frame w w' : frame w w' -> mono w w'.
Proof.
  intros F. constructor.
  - intros i _. apply (f_item _ _ F i).
  - intros i b _ H. destruct (f_item _ _ F i) as [A [B [C [D E]]]]. congruence.
  - intros. now rewrite (f_hist _ _ F).
  - intros p _. now destruct (f_pl _ _ F p).
  - apply F.
Qed.
Lemma mono_trans a b c : mono a b -> mono b c -> w_ni a <= w_ni b -> w_np a <= w_np b -> mono a c.
Proof.
  intros A B H1 H2. constructor.
  - intros i Hi. rewrite (m_kind _ _ B) by lia. now apply A.
  - intros i x Hi Hx. apply (m_done _ _ B); [lia|]. now apply A.
  - intros i h e Hi Hx Ht. rewrite (m_hist _ _ B i h e); [|lia| |exact Ht].
    + eapply (m_hist _ _ A); eauto.
    + rewrite (m_hist _ _ A i h e); auto.
  - intros p Hp. rewrite (m_items _ _ B) by lia. now apply A.
  - eapply incl_tran; [apply A|apply B].
Qed.
Lemma finished_mono w w' i : mono w w' -> i < w_ni w -> finished w i -> finished w' i.
Proof.
  intros M Hi. unfold finished. rewrite (m_kind _ _ M) by exact Hi. destruct (i_kind (w_item w i)); auto.
  - intros [h [c H]]. exists h, c. rewrite (m_hist _ _ M i h (CExit c)); auto.
  - intros H. destruct (i_done (w_item w i)) eqn:E; [|congruence]. rewrite (m_done _ _ M i b); auto.
Qed.
Lemma succeeded_mono w w' i : mono w w' -> i < w_ni w -> succeeded w i -> succeeded w' i.
Proof.
  intros M Hi. unfold succeeded. rewrite (m_kind _ _ M) by exact Hi. destruct (i_kind (w_item w i)); auto.
  - intros [h H]. exists h. rewrite (m_hist _ _ M i h (CExit 0)); auto.
  - intros H. now apply (m_done _ _ M i).
Qed.
Lemma failed_mono w w' i : mono w w' -> i < w_ni w -> failed w i -> failed w' i.
Proof.
  intros M Hi. unfold failed. rewrite (m_kind _ _ M) by exact Hi. destruct (i_kind (w_item w i)); auto.
  - intros [h [c [H E]]]. exists h, c. rewrite (m_hist _ _ M i h (CExit c)); auto.
  - intros H. now apply (m_done _ _ M i).
Qed.
Definition closed (w : world) : Prop :=
  (forall p i, In i (p_items (w_pl w p)) -> i < w_ni w) /\ (forall i q, i < w_ni w -> i_kind (w_item w i) = KFg q -> q < w_np w).
Lemma BI_closed w : BI w -> closed w.
Proof.
  intros B. split; [intros p i H; now apply (b_items _ B) in H|]. intros i q Hi Hk. pose proof (b_fg _ B i q Hi Hk). pose proof (b_ipl _ B i Hi). lia.
Qed.
Lemma result_mono w w' p r : mono w w' -> p < w_np w -> closed w -> result_ok w p r -> result_ok w' p r.
Proof.
  intros M Hp [C1 C2].
  assert (A1 : forall i, all_finished w i -> i < w_ni w -> all_finished w' i).
  { intros i H. induction H as [i H|i q Hk H IH]; intros Hi.
    - apply fin_leaf. eapply finished_mono; eauto.
    - apply (fin_fg _ i q); [now rewrite (m_kind _ _ M)|]. intros j. rewrite (m_items _ _ M) by eauto. eauto. }
  assert (A2 : forall i, all_succeeded w i -> i < w_ni w -> all_succeeded w' i).
  { intros i H. induction H as [i H|i q Hk H IH]; intros Hi.
    - apply suc_leaf. eapply succeeded_mono; eauto.
    - apply (suc_fg _ i q); [now rewrite (m_kind _ _ M)|]. intros j. rewrite (m_items _ _ M) by eauto. eauto. }
  assert (A3 : forall i, some_failed w i -> i < w_ni w -> some_failed w' i).
  { intros i H. induction H as [i H|i q j Hk Hj H IH]; intros Hi.
    - apply fail_leaf. eapply failed_mono; eauto.
    - apply (fail_fg _ i q j); [now rewrite (m_kind _ _ M)| |eauto]. rewrite (m_items _ _ M); eauto. }
  unfold result_ok. rewrite (m_items _ _ M) by exact Hp. destruct r.
  - intros H i X. apply A2; eauto.
  - intros [H [i [X Y]]]. split; [intros j Z; apply A1; eauto|]. exists i. split; [exact X|]. apply A3; eauto.
  - intros H i pid X. rewrite (m_items _ _ M) in X by exact Hp. rewrite (m_kind _ _ M) by eauto. intros K.
    destruct (H i pid X K) as [k [A B]]. exists k. split; [now apply (m_kills _ _ M)|exact B].
Qed.

(** ** Changes below the pipelines *)
Record kch (w w' : world) : Prop := {
  kc_pl : w_pl w' = w_pl w; kc_np : w_np w' = w_np w; kc_wt : w_wt w' = w_wt w; kc_nw : w_nw w' = w_nw w;
  kc_running : w_running w' = w_running w; kc_current : w_current w' = w_current w; kc_kills : w_kills w' = w_kills w;
  kc_ni : w_ni w' = w_ni w;
  kc_item : forall i, i_kind (w_item w' i) = i_kind (w_item w i) /\ i_pl (w_item w' i) = i_pl (w_item w i) /\ i_task (w_item w' i) = i_task (w_item w i);
  kc_done : forall i b, i_done (w_item w i) = Some b -> i_done (w_item w' i) = Some b;
  kc_hist : forall i h e, w_hist w i = h ++ [e] -> terminal e = true -> w_hist w' i = w_hist w i }.
Lemma mono_kch w w' : kch w w' -> mono w w'.
Proof.
  intros K. constructor; intros.
  - apply K.
  - now apply (kc_done _ _ K).
  - eapply (kc_hist _ _ K); eauto.
  - now rewrite (kc_pl _ _ K).
  - rewrite (kc_kills _ _ K). apply incl_refl.
Qed.
Lemma plain_kch w w' p : kch w w' -> plain w' p <-> plain w p.
Proof.
  intros K. unfold plain. rewrite (kc_pl _ _ K). split; intros H i Hi; specialize (H i Hi);
    destruct (kc_item _ _ K i) as [E _]; [rewrite E in H|rewrite E]; exact H.
Qed.
Lemma BI_kch w w' : kch w w' -> BI w -> BI w'.
Proof.
  intros K B. pose proof (mono_kch _ _ K) as M. pose proof K as K0. pose proof (BI_closed _ B) as Cl. destruct K, B.
  assert (KD : forall i, i_kind (w_item w' i) = i_kind (w_item w i)) by (intros; apply kc_item0).
  assert (PL : forall i, i_pl (w_item w' i) = i_pl (w_item w i)) by (intros; apply kc_item0).
  assert (TK : forall i, i_task (w_item w' i) = i_task (w_item w i)) by (intros; apply kc_item0).
  constructor; try rewrite kc_pl0; try rewrite kc_np0; try rewrite kc_wt0; try rewrite kc_nw0; try rewrite kc_running0;
    try rewrite kc_current0; try rewrite kc_ni0; auto.
  - intros p i. rewrite PL. auto.
  - intros i. rewrite PL. auto.
  - intros i q. rewrite PL, KD. auto.
  - intros t i. rewrite KD, TK. auto.
  - intros i t. rewrite TK. auto.
  - intros i. rewrite KD, TK. intros A C. specialize (b_task0 i A C). destruct (i_task (w_item w i)); auto.
  - intros t r A C. eapply result_mono; eauto.
  - intros p A C. rewrite not_running_plain by exact C. rewrite kc_pl0. apply (plain_kch _ _ _ K0) in C.
    specialize (b_fin0 p A C). rewrite not_running_plain in b_fin0 by exact C. intros i Hi. specialize (b_fin0 i Hi).
    destruct (i_done (w_item w i)) eqn:E; [|congruence]. rewrite (kc_done0 _ _ E). discriminate.
  - intros p A C D. apply (plain_kch _ _ _ K0) in D. auto.
Qed.
Lemma JI_kch w w' : kch w w' -> JI w -> JI w'.
Proof.
  intros K J p. rewrite (kc_pl _ _ K). intros A C D E. apply (plain_kch _ _ _ K) in C. apply J; auto.
  intros i Hi. rewrite <- (E i); [symmetry; apply K|]. now rewrite (kc_pl _ _ K).
Qed.

(** ** Waking and finishing *)
Record jrel (w w' : world) : Prop := {
  j_frame : frame w w';
  j_task : forall i, (forall q, i_kind (w_item w i) <> KFg q) -> i_task (w_item w' i) = i_task (w_item w i);
  j_fin : forall p, p_finished (w_pl w p) = true -> p_finished (w_pl w' p) = true;
  j_fut : forall p t, p_future (w_pl w' p) = Some t -> p_future (w_pl w p) = Some t \/ pl_running w p = true }.
Lemma jrel_refl w : jrel w w.
Proof. constructor; auto. apply frame_refl. Qed.
Lemma jrel_trans a b c : jrel a b -> jrel b c -> jrel a c.
Proof.
  intros A B. constructor.
  - eapply frame_trans; [apply A|apply B].
  - intros i H. rewrite (j_task _ _ B), (j_task _ _ A); auto. intros q. destruct (f_item _ _ (j_frame _ _ A) i) as [-> _]. apply H.
  - intros p H. apply (j_fin _ _ B). now apply (j_fin _ _ A).
  - intros p t H. destruct (j_fut _ _ B p t H) as [X|X]; [now apply (j_fut _ _ A) in X|].
    right. now rewrite (frame_pl_running _ _ p (j_frame _ _ A)) in X.
Qed.
Lemma JI_jrel w w' : BI w -> JI w -> jrel w w' -> JI w'.
Proof.
  intros B J R p A C D E. pose proof (j_frame _ _ R) as F. destruct (f_pl _ _ F p) as [P1 [_ P3]].
  rewrite P1 in A. rewrite P3 in D. apply (plain_frame _ _ _ F) in C.
  assert (E' : all_ended w p).
  { intros i Hi. rewrite <- (j_task _ _ R); [apply E; now rewrite P1|].
    intros q Hq. specialize (C i Hi). now rewrite Hq in C. }
  destruct (J p A C D E') as [J1 J2]. split; [|now apply (j_fin _ _ R)].
  destruct (p_future (w_pl w' p)) as [t|] eqn:Ef; [|reflexivity]. destruct (j_fut _ _ R p t Ef) as [X|X]; [congruence|].
  exfalso. rewrite <- Bool.not_false_iff_true in X. apply X. apply not_running_plain; [exact C|]. intros i Hi.
  destruct (b_items _ B _ _ Hi) as [Y _]. assert (Z : forall q, i_kind (w_item w i) <> KFg q).
  { intros q Hq. specialize (C i Hi). now rewrite Hq in C. }
  pose proof (b_task _ B i Y Z) as T. rewrite (E' i Hi) in T. congruence.
Qed.
Lemma jrel_set_pl w p x : pcore x (w_pl w p) -> (p_finished (w_pl w p) = true -> p_finished x = true) ->
  (forall t, p_future x = Some t -> p_future (w_pl w p) = Some t \/ pl_running w p = true) -> jrel w (set_pl w p x).
Proof.
  intros A B C. constructor; cbn; auto.
  - now apply frame_set_pl.
  - intros q. unfold upd. destruct (Nat.eqb_spec p q) as [<-|]; auto.
  - intros q t. unfold upd. destruct (Nat.eqb_spec p q) as [<-|]; auto.
Qed.
Lemma jrel_set_wt w t x : jrel w (set_wt w t x).
Proof. constructor; cbn; auto. apply frame_set_wt. Qed.
Lemma jrel_set_running w l : jrel w (set_running w l).
Proof. constructor; cbn; auto. apply frame_set_running. Qed.
Lemma jrel_set_current w l : jrel w (set_current w l).
Proof. constructor; cbn; auto. apply frame_set_current. Qed.
Lemma jrel_fg_item w i q tk : i_kind (w_item w i) = KFg q ->
  jrel w (set_item w i (mkI (i_kind (w_item w i)) (i_pl (w_item w i)) (i_last (w_item w i)) (i_done (w_item w i)) tk (i_seen (w_item w i)))).
Proof.
  intros K. constructor; cbn; auto.
  - apply frame_set_item. repeat split.
  - intros j Hj. unfold upd. destruct (Nat.eqb_spec i j) as [<-|]; [now destruct (Hj q)|reflexivity].
Qed.
Lemma jrel_wake w p : jrel w (wake w p).
Proof.
  unfold wake. destruct (p_future (w_pl w p)) eqn:E; [|apply jrel_refl].
  eapply jrel_trans; [|apply jrel_set_wt]. apply jrel_set_pl; cbn; auto; [repeat split|discriminate].
Qed.
Lemma jrel_hf w p : jrel w (handle_finish w p).
Proof.
  unfold handle_finish. destruct (_ && _); [|apply jrel_wake].
  assert (G : jrel w (set_pl w p (mkP (p_items (w_pl w p)) (p_future (w_pl w p)) (p_susp (w_pl w p)) true (p_inter (w_pl w p)) (p_bad (w_pl w p)) (S (p_cleaned (w_pl w p)))))).
  { apply jrel_set_pl; cbn; auto. repeat split. }
  destruct (p_bad (w_pl w p)); [exact G|].
  eapply jrel_trans; [|apply jrel_wake]. eapply jrel_trans; [exact G|apply jrel_set_running].
Qed.
Lemma jrel_signals s l : forall w, jrel w (fold_left (signal_item s) l w).
Proof.
  induction l as [|i l IH]; intros w; cbn; [apply jrel_refl|]. eapply jrel_trans; [|apply IH].
  unfold signal_item. destruct (i_kind (w_item w i)); try apply jrel_refl. constructor; cbn; auto.
  apply frame_set_kills. apply incl_appl, incl_refl.
Qed.
Lemma jrel_restart w p : jrel w (pl_restart w p).
Proof. unfold pl_restart. eapply jrel_trans; [|apply jrel_signals]. apply jrel_set_pl; cbn; auto; repeat split. Qed.
Lemma jrel_suspend w p : jrel w (pl_suspend w p).
Proof. unfold pl_suspend. eapply jrel_trans; [|apply jrel_signals]. apply jrel_set_pl; cbn; auto; repeat split. Qed.
Lemma jrel_stop_event w : jrel w (stop_event w).
Proof.
  unfold stop_event. destruct (w_current w) as [p|]; [|apply jrel_refl].
  destruct (p_future _).
  - eapply jrel_trans; [|apply jrel_set_wt]. apply jrel_set_pl; cbn; auto; [repeat split|discriminate].
  - apply jrel_set_pl; cbn; auto; [repeat split|discriminate].
Qed.
Lemma jrel_wait_loop w t : (forall i, wt_owner (w_wt w t) = Some i -> exists q, i_kind (w_item w i) = KFg q) -> jrel w (wait_loop w t).
Proof.
  intros Ho. unfold wait_loop. destruct (negb (p_susp _) && pl_running w _) eqn:Er.
  - apply andb_true_iff in Er. destruct Er as [_ Er].
    eapply jrel_trans; [|apply jrel_set_wt]. apply jrel_set_pl; cbn; auto. repeat split.
  - set (rr := if p_susp _ then _ else _).
    assert (F : jrel w (fst rr)).
    { unfold rr. destruct (p_susp _); [apply jrel_suspend|]. destruct (pl_failed _ _); apply jrel_refl. }
    destruct rr as [w1 r]. cbn [fst] in F.
    set (w2 := set_wt (set_current w1 None) t _).
    assert (F2 : jrel w w2).
    { eapply jrel_trans; [exact F|]. eapply jrel_trans; [|apply jrel_set_wt]. apply jrel_set_current. }
    destruct (wt_owner (w_wt w t)) as [i|] eqn:Eo; [|exact F2].
    destruct (Ho i eq_refl) as [q Hq].
    assert (Hq2 : i_kind (w_item w2 i) = KFg q) by (destruct (f_item _ _ (j_frame _ _ F2) i) as [-> _]; exact Hq).
    destruct r; (eapply jrel_trans; [exact F2|]).
    + eapply jrel_trans; [|apply jrel_hf]. eapply jrel_fg_item; eauto.
    + eapply jrel_fg_item; eauto.
    + eapply jrel_fg_item; eauto.
Qed.

(** ** The pipeline operations keep [BI] *)
Lemma plain_set_pl w p x q : pcore x (w_pl w p) -> plain (set_pl w p x) q <-> plain w q.
Proof. intros H. symmetry. apply plain_frame. now apply frame_set_pl. Qed.
Lemma result_frame w w' p r : BI w -> frame w w' -> p < w_np w -> result_ok w p r -> result_ok w' p r.
Proof. intros B F Hp. apply result_mono; auto using mono_frame, BI_closed. Qed.

Lemma BI_set_pl w p x : BI w -> p < w_np w -> pcore x (w_pl w p) ->
  (p_future x = p_future (w_pl w p) \/ p_future x = None) -> p_finished x = p_finished (w_pl w p) -> p_cleaned x = p_cleaned (w_pl w p) ->
  BI (set_pl w p x).
Proof.
  intros B Hp Hc Hf Hn Hk. pose proof (frame_set_pl w p x Hc) as F. pose proof B as B0. destruct B.
  assert (PI : forall q, p_items (upd (w_pl w) p x q) = p_items (w_pl w q)).
  { intros q. unfold upd. destruct (Nat.eqb_spec p q) as [<-|]; [apply Hc|reflexivity]. }
  assert (PB : forall q, p_bad (upd (w_pl w) p x q) = p_bad (w_pl w q)).
  { intros q. unfold upd. destruct (Nat.eqb_spec p q) as [<-|]; [apply Hc|reflexivity]. }
  assert (PF : forall q, p_finished (upd (w_pl w) p x q) = p_finished (w_pl w q)).
  { intros q. unfold upd. destruct (Nat.eqb_spec p q) as [<-|]; [apply Hn|reflexivity]. }
  constructor; cbn; auto.
  - intros q t. unfold upd. destruct (Nat.eqb_spec p q) as [<-|]; [|apply b_fut0].
    destruct Hf as [->| ->]; [apply b_fut0|discriminate].
  - intros q Hq. rewrite upd_other by lia. auto.
  - intros q i. rewrite PI. auto.
  - intros i. rewrite PI. auto.
  - intros t r A C. eapply result_frame; eauto.
  - intros t. rewrite PI. auto.
  - intros q. rewrite PF. intros A C. apply (plain_set_pl w p x q Hc) in C. rewrite (frame_pl_running _ _ q F). auto.
  - intros q. rewrite PI, PB, PF. intros A C D E. apply (plain_set_pl w p x q Hc) in D. auto.
  - intros q. rewrite PF. unfold upd. destruct (Nat.eqb_spec p q) as [<-|]; [rewrite Hk|]; auto.
Qed.
Lemma fin_frame w w' : frame w w' -> (forall p, p_finished (w_pl w' p) = true -> p_finished (w_pl w p) = true) ->
  (forall p, p_finished (w_pl w p) = true -> plain w p -> pl_running w p = false) ->
  forall p, p_finished (w_pl w' p) = true -> plain w' p -> pl_running w' p = false.
Proof. intros F H1 H2 p A C. rewrite (frame_pl_running _ _ p F). apply (plain_frame _ _ p F) in C. auto. Qed.
Lemma BI_ready w t o pl : BI w -> t < w_nw w -> (forall p, p_future (w_pl w p) <> Some t) ->
  (match wt_phase (w_wt w t) with WDone _ => False | _ => True end) -> o = wt_owner (w_wt w t) -> pl = wt_pl (w_wt w t) ->
  BI (set_wt w t (mkW pl WReady o)).
Proof.
  intros B Ht Hf Hd -> ->. pose proof B as B0. destruct B. constructor; cbn; auto.
  - intros p t' H. rewrite upd_other; [auto|]. intros ->. now apply Hf in H.
  - intros t' H. unfold upd. destruct (Nat.eqb_spec t t') as [<-|]; cbn; auto.
  - intros t' i H. unfold upd. destruct (Nat.eqb_spec t t') as [<-|]; cbn; auto.
    intros X. destruct (b_own0 _ _ H X) as [A1 [A2 A3]]. split; [exact A1|]. split; [exact A2|].
    destruct (wt_phase (w_wt w t)); try contradiction; exact A3.
  - assert (O : forall t', wt_owner (upd (w_wt w) t (mkW (wt_pl (w_wt w t)) WReady (wt_owner (w_wt w t))) t') = wt_owner (w_wt w t')).
    { intros t'. unfold upd. destruct (Nat.eqb_spec t t') as [<-|]; reflexivity. }
    intros t1 t2 i H1 H2. rewrite !O. intros. eapply b_own2; eauto.
  - intros i t' X H. unfold upd. destruct (Nat.eqb_spec t t') as [<-|]; cbn; auto.
  - intros t' r H. unfold upd. destruct (Nat.eqb_spec t t') as [<-|]; cbn; [discriminate|]. intros X. eapply result_frame; eauto. apply frame_set_wt.
  - intros t' H. unfold upd. destruct (Nat.eqb_spec t t') as [<-|]; cbn; [discriminate|]. auto.
  - apply (fin_frame _ _ (frame_set_wt w t _)); auto.
Qed.
Lemma BI_current w c : BI w -> (forall p, c = Some p -> p < w_np w) -> BI (set_current w c).
Proof.
  intros B H. pose proof B as B0. destruct B. constructor; cbn; auto.
  - intros t r A C. eapply result_frame; eauto. apply frame_set_current.
  - apply (fin_frame _ _ (frame_set_current w c)); auto.
Qed.
Lemma BI_kills w l : BI w -> incl (w_kills w) l -> BI (set_kills w l).
Proof.
  intros B H. pose proof B as B0. destruct B. constructor; cbn; auto.
  - intros t r A C. eapply result_frame; eauto. now apply frame_set_kills.
  - apply (fin_frame _ _ (frame_set_kills w l H)); auto.
Qed.
Lemma BI_wake w p : BI w -> p < w_np w -> BI (wake w p).
Proof.
  intros B Hp. unfold wake. destruct (p_future (w_pl w p)) as [t|] eqn:E; [|exact B].
  destruct (b_fut _ B _ _ E) as [Ht [Hpl Hph]].
  apply BI_ready; cbn; auto.
  - apply BI_set_pl; cbn; auto. repeat split.
  - intros q. unfold upd. destruct (Nat.eqb_spec p q) as [<-|Hn]; cbn; [discriminate|]. intros X.
    destruct (b_fut _ B _ _ X) as [_ [Y _]]. congruence.
  - now rewrite Hph.
Qed.
Lemma remove_first_In l p q : NoDup l -> In q (remove_first l p) <-> In q l /\ q <> p.
Proof.
  induction l as [|x l IH]; cbn; [tauto|]. intros Hn. inversion Hn; subst. destruct (Nat.eqb_spec x p) as [->|Hx].
  - split; [intros X; split; [auto|intros ->; auto]|]. intros [[X|X] Y]; [congruence|exact X].
  - cbn. fold (remove_first l p). rewrite (IH H2). split; [intros [X|[X Y]]; subst; auto|]. intros [[X|X] Y]; auto.
Qed.
Lemma remove_first_NoDup l p : NoDup l -> NoDup (remove_first l p).
Proof.
  induction l as [|x l IH]; cbn; [constructor|]. intros Hn. inversion Hn; subst. destruct (Nat.eqb_spec x p); [exact H2|].
  constructor; [|now apply IH]. fold (remove_first l p). rewrite remove_first_In by exact H2. tauto.
Qed.
Lemma BI_finish w p l : BI w -> p < w_np w -> p_finished (w_pl w p) = false -> pl_running w p = false ->
  (if p_bad (w_pl w p) then l = w_running w else l = remove_first (w_running w) p) ->
  BI (set_running (set_pl w p (mkP (p_items (w_pl w p)) (p_future (w_pl w p)) (p_susp (w_pl w p)) true (p_inter (w_pl w p)) (p_bad (w_pl w p)) (S (p_cleaned (w_pl w p))))) l).
Proof.
  intros B Hp Hf Hr Hl. remember (mkP (p_items (w_pl w p)) (p_future (w_pl w p)) (p_susp (w_pl w p)) true (p_inter (w_pl w p)) (p_bad (w_pl w p)) (S (p_cleaned (w_pl w p)))) as x eqn:Ex.
  assert (Hc : pcore x (w_pl w p)) by (subst x; repeat split).
  pose proof (frame_set_pl w p x Hc) as F.
  assert (F' : frame w (set_running (set_pl w p x) l)) by (eapply frame_trans; [exact F|apply frame_set_running]).
  pose proof B as B0. destruct B.
  assert (PI : forall q, p_items (upd (w_pl w) p x q) = p_items (w_pl w q)).
  { intros q. unfold upd. destruct (Nat.eqb_spec p q) as [<-|]; [subst x|]; reflexivity. }
  constructor; cbn; auto.
  - intros q t. unfold upd. destruct (Nat.eqb_spec p q) as [<-|]; [subst x|]; apply b_fut0.
  - intros q Hq. rewrite upd_other by lia. auto.
  - intros q i. rewrite PI. auto.
  - intros i. rewrite PI. auto.
  - intros t r A C. eapply result_frame; eauto.
  - intros t. rewrite PI. auto.
  - intros q A C. rewrite (frame_pl_running _ _ q F'). apply (plain_frame _ _ q F') in C. unfold upd in A.
    destruct (Nat.eqb_spec p q) as [Epq|]; [rewrite <- Epq; exact Hr|auto].
  - destruct (p_bad (w_pl w p)); subst l; [exact b_rnd0|now apply remove_first_NoDup].
  - intros q X. apply b_rnp0. destruct (p_bad (w_pl w p)); subst l; [exact X|]. now apply remove_first_In in X.
  - intros q. rewrite PI. intros A C D E. apply (plain_frame _ _ q F') in D. unfold upd in *. destruct (Nat.eqb_spec p q) as [<-|Hn].
    + subst x. cbn in *. rewrite E in Hl. subst l. rewrite remove_first_In by exact b_rnd0. split; [tauto|discriminate].
    + rewrite <- (b_run0 q A C D E). destruct (p_bad (w_pl w p)); subst l; [tauto|]. rewrite remove_first_In by exact b_rnd0. intuition.
  - intros q. unfold upd. destruct (Nat.eqb_spec p q) as [<-|]; [|auto]. subst x. cbn. rewrite b_clean0, Hf. reflexivity.
Qed.
Lemma BI_hf w p : BI w -> p < w_np w -> BI (handle_finish w p).
Proof.
  intros B Hp. unfold handle_finish. destruct (negb (pl_running w p) && negb (p_finished (w_pl w p))) eqn:E; [|now apply BI_wake].
  apply andb_true_iff in E. destruct E as [E1 E2]. apply negb_true_iff in E1, E2.
  destruct (p_bad (w_pl w p)) eqn:Eb.
  - pose proof (BI_finish w p (w_running w) B Hp E2 E1) as X. rewrite Eb in X. exact (X eq_refl).
  - apply BI_wake; [|exact Hp]. pose proof (BI_finish w p (remove_first (w_running w) p) B Hp E2 E1) as X. rewrite Eb in X. exact (X eq_refl).
Qed.
Lemma BI_signals s l : forall w, BI w -> BI (fold_left (signal_item s) l w).
Proof.
  induction l as [|i l IH]; intros w B; cbn; [exact B|]. apply IH. unfold signal_item.
  destruct (i_kind (w_item w i)); auto. apply BI_kills; [exact B|]. apply incl_appl, incl_refl.
Qed.
Lemma BI_set_susp w p b : BI w -> p < w_np w -> BI (set_susp w p b).
Proof. intros B Hp. apply BI_set_pl; cbn; auto. repeat split. Qed.
Lemma BI_restart w p : BI w -> p < w_np w -> BI (pl_restart w p).
Proof. intros B Hp. apply BI_signals. now apply BI_set_susp. Qed.
Lemma BI_suspend w p : BI w -> p < w_np w -> BI (pl_suspend w p).
Proof. intros B Hp. apply BI_signals. now apply BI_set_susp. Qed.
Lemma BI_stop_event w : BI w -> BI (stop_event w).
Proof.
  intros B. unfold stop_event. destruct (w_current w) as [p|] eqn:Ec; [|exact B].
  pose proof (b_cur _ B _ Ec) as Hp.
  assert (G : BI (set_pl w p (mkP (p_items (w_pl w p)) None true (p_finished (w_pl w p)) (p_inter (w_pl w p)) (p_bad (w_pl w p)) (p_cleaned (w_pl w p))))).
  { apply BI_set_pl; cbn; auto. repeat split. }
  destruct (p_future (w_pl w p)) as [t|] eqn:E; [|exact G].
  destruct (b_fut _ B _ _ E) as [Ht [Hpl Hph]]. apply BI_ready; cbn; auto.
  - intros q. unfold upd. destruct (Nat.eqb_spec p q) as [<-|Hn]; cbn; [discriminate|]. intros X.
    destruct (b_fut _ B _ _ X) as [_ [Y _]]. congruence.
  - now rewrite Hph.
Qed.

(** what suspend sends *)
Lemma signals_sent s l : forall w i pid, In i l -> i_kind (w_item w i) = KProc pid ->
  exists k, In k (w_kills (fold_left (signal_item s) l w)) /\ k_item k = i /\ k_pid k = pid /\ k_sig k = s /\ k_reaped k = reaped w i.
Proof.
  induction l as [|j l IH]; intros w i pid Hi Hk; [destruct Hi|]. cbn [fold_left].
  destruct (Nat.eq_dec i j) as [<-|Hn].
  - exists (mkK i pid s (reaped w i)). split; [|auto].
    apply (f_kills _ _ (frame_signals s l (signal_item s w i))). unfold signal_item. rewrite Hk. cbn. apply in_or_app. right. now left.
  - destruct Hi as [Hi|Hi]; [congruence|]. pose proof (frame_signal_item s w j) as F.
    destruct (IH (signal_item s w j) i pid Hi) as [k [A [B [C [D E]]]]].
    + destruct (f_item _ _ F i) as [-> _]. exact Hk.
    + exists k. repeat (split; [assumption|]). rewrite E. unfold reaped. now rewrite (f_hist _ _ F).
Qed.
Lemma suspend_stops w p : stopped_all (pl_suspend w p) p.
Proof.
  intros i pid Hi Hk. unfold pl_suspend in *. pose proof (frame_suspend w p) as F. unfold pl_suspend in F.
  destruct (f_pl _ _ F p) as [E _]. rewrite E in Hi. destruct (f_item _ _ F i) as [E2 _]. rewrite E2 in Hk.
  destruct (signals_sent SIGSTOP (p_items (w_pl w p)) (set_susp w p true) i pid Hi) as [k [A [B [C [D _]]]]]; [exact Hk|].
  exists k. auto.
Qed.

(** the verdict when the loop is left *)
Lemma failed_plain w i f : (match i_kind (w_item w i) with KFg _ => False | _ => True end) ->
  failed_f f w i = match i_kind (w_item w i) with
    | KProc _ => match i_last (w_item w i) with Some e => negb (N.eqb (ssi_status e) 0) | None => false end
    | _ => match i_done (w_item w i) with Some b => b | None => false end end.
Proof. destruct f; cbn; destruct (i_kind (w_item w i)); try contradiction; reflexivity. Qed.
Lemma done_finished w i : KI w -> i < w_ni w -> (match i_kind (w_item w i) with KFg _ => False | _ => True end) ->
  i_done (w_item w i) <> None ->
  finished w i /\ (failed_f (w_np w) w i = true -> failed w i) /\ (failed_f (w_np w) w i = false -> succeeded w i).
Proof.
  intros K Hi Hk Hd. rewrite failed_plain by exact Hk. unfold finished, failed, succeeded.
  destruct (i_kind (w_item w i)) as [pid| |] eqn:Ek; [| |contradiction].
  - destruct (k_fate _ K i pid Hi Ek) as [Ho|[h [e [H1 [H2 [H3 [H4 H5]]]]]]].
    + destruct (k_kern _ K _ _ Ho) as [A _]. destruct (k_regitem _ K _ _ A) as [_ [_ X]]. congruence.
    + destruct e as [c| | |]; try congruence. destruct H5 as [H5 [x [H6 H7]]]. rewrite H6, H7. split; [eauto|]. split.
      * intros X. exists h, c. split; [exact H1|]. intros ->. discriminate.
      * intros X. apply negb_false_iff, N.eqb_eq in X. subst c. rewrite X in H1. eauto.
  - destruct (i_done (w_item w i)) as [b|]; [|congruence]. split; [discriminate|]. split; intros ->; reflexivity.
Qed.
Lemma done_all w : KI w -> BI w -> forall f i, i < w_ni w -> i_pl (w_item w i) <= f -> running_f f w i = false ->
  all_finished w i /\ (failed_f f w i = true -> some_failed w i) /\ (failed_f f w i = false -> all_succeeded w i).
Proof.
  intros K B. induction f as [|f IH]; intros i Hi Hf Hr.
  - destruct (i_kind (w_item w i)) as [pid| |q] eqn:Ek; [| |pose proof (b_fg _ B i q Hi Ek); lia].
    + destruct (done_finished w i K Hi) as [A [A1 A2]]; [now rewrite Ek|cbn in Hr; rewrite Ek in Hr; destruct (i_done (w_item w i)); congruence|].
      split; [now apply fin_leaf|]. rewrite failed_plain in A1, A2 by now rewrite Ek. rewrite failed_plain by now rewrite Ek.
      split; intros X; [apply fail_leaf|apply suc_leaf]; auto.
    + destruct (done_finished w i K Hi) as [A [A1 A2]]; [now rewrite Ek|cbn in Hr; rewrite Ek in Hr; destruct (i_done (w_item w i)); congruence|].
      split; [now apply fin_leaf|]. rewrite failed_plain in A1, A2 by now rewrite Ek. rewrite failed_plain by now rewrite Ek.
      split; intros X; [apply fail_leaf|apply suc_leaf]; auto.
  - destruct (i_kind (w_item w i)) as [pid| |q] eqn:Ek.
    + destruct (done_finished w i K Hi) as [A [A1 A2]]; [now rewrite Ek|cbn in Hr; rewrite Ek in Hr; destruct (i_done (w_item w i)); congruence|].
      split; [now apply fin_leaf|]. rewrite failed_plain in A1, A2 by now rewrite Ek. rewrite failed_plain by now rewrite Ek.
      split; intros X; [apply fail_leaf|apply suc_leaf]; auto.
    + destruct (done_finished w i K Hi) as [A [A1 A2]]; [now rewrite Ek|cbn in Hr; rewrite Ek in Hr; destruct (i_done (w_item w i)); congruence|].
      split; [now apply fin_leaf|]. rewrite failed_plain in A1, A2 by now rewrite Ek. rewrite failed_plain by now rewrite Ek.
      split; intros X; [apply fail_leaf|apply suc_leaf]; auto.
    + cbn in Hr. rewrite Ek in Hr. rewrite existsb_false in Hr. pose proof (b_fg _ B i q Hi Ek) as Hq.
      assert (G : forall j, In j (p_items (w_pl w q)) -> all_finished w j /\ (failed_f f w j = true -> some_failed w j) /\ (failed_f f w j = false -> all_succeeded w j)).
      { intros j Hj. destruct (b_items _ B _ _ Hj) as [Lj Pj]. apply IH; [exact Lj|lia|now apply Hr]. }
      cbn. rewrite Ek. split; [apply (fin_fg _ i q Ek); intros j Hj; now apply G|]. split; intros X.
      * apply existsb_exists in X. destruct X as [j [Hj X]]. apply andb_true_iff in X. destruct X as [_ X]. apply (fail_fg _ i q j Ek Hj). now apply G.
      * rewrite existsb_false in X. apply (suc_fg _ i q Ek). intros j Hj. apply G; [exact Hj|]. specialize (X j Hj). rewrite (Hr j Hj) in X. exact X.
Qed.
Lemma result_now w p r : KI w -> BI w -> pl_running w p = false -> pl_failed w p = (match r with RFailed => true | _ => false end) ->
  r <> RSuspended -> result_ok w p r.
Proof.
  intros K B Hr Hf Hs. unfold pl_running in Hr. rewrite existsb_false in Hr.
  assert (D : forall i, In i (p_items (w_pl w p)) ->
    all_finished w i /\ (failed_f (w_np w) w i = true -> some_failed w i) /\ (failed_f (w_np w) w i = false -> all_succeeded w i)).
  { intros i Hi. destruct (b_items _ B _ _ Hi) as [Li Pi]. apply done_all; auto; [pose proof (b_ipl _ B i Li); lia|]. now apply Hr. }
  destruct r; cbn; [| |congruence].
  - intros i Hi. destruct (D i Hi) as [_ [_ X]]. apply X.
    unfold pl_failed in Hf. rewrite existsb_false in Hf. specialize (Hf i Hi). rewrite (Hr i Hi) in Hf. exact Hf.
  - split; [intros i Hi; now apply D|].
    unfold pl_failed in Hf. apply existsb_exists in Hf. destruct Hf as [i [Hi Hf]]. apply andb_true_iff in Hf. destruct Hf as [_ Hf].
    exists i. split; [exact Hi|]. now apply (D i Hi).
Qed.

Lemma BI_fg_item w i q tk : BI w -> i_kind (w_item w i) = KFg q -> tk <> TNew ->
  (forall t, t < w_nw w -> wt_owner (w_wt w t) = Some i -> match wt_phase (w_wt w t) with WDone _ => True | _ => tk = TWait end) ->
  BI (set_item w i (mkI (i_kind (w_item w i)) (i_pl (w_item w i)) (i_last (w_item w i)) (i_done (w_item w i)) tk (i_seen (w_item w i)))).
Proof.
  intros B Hk Htk Ho. set (x := mkI _ _ _ _ _ _).
  assert (Hc : core x (w_item w i)) by repeat split.
  pose proof (frame_set_item w i x Hc) as F. pose proof B as B0. destruct B.
  assert (KD : forall j, i_kind (upd (w_item w) i x j) = i_kind (w_item w j)).
  { intros j. unfold upd. destruct (Nat.eqb_spec i j) as [<-|]; reflexivity. }
  assert (PL : forall j, i_pl (upd (w_item w) i x j) = i_pl (w_item w j)).
  { intros j. unfold upd. destruct (Nat.eqb_spec i j) as [<-|]; reflexivity. }
  constructor; cbn; auto.
  - intros p j. rewrite PL. auto.
  - intros j. rewrite PL. auto.
  - intros j q'. rewrite PL, KD. auto.
  - intros t j H1 H2. rewrite KD. destruct (b_own0 t j H1 H2) as [A1 [A2 A3]]. split; [exact A1|]. split; [exact A2|].
    unfold upd. destruct (Nat.eqb_spec i j) as [<-|]; [|exact A3]. cbn. apply (Ho t H1 H2).
  - intros j t. unfold upd. destruct (Nat.eqb_spec i j) as [<-|]; [cbn; congruence|auto].
  - intros j Hj. rewrite KD. unfold upd. destruct (Nat.eqb_spec i j) as [<-|]; [|exact (b_task0 j Hj)]. intros X. now destruct (X q).
  - intros t r A C. eapply result_frame; eauto.
  - apply (fin_frame _ _ F); auto.
  - intros p A C D. apply (plain_frame _ _ p F) in D. auto.
Qed.
Lemma BI_wt_done w t r : BI w -> t < w_nw w -> (forall p, p_future (w_pl w p) <> Some t) -> result_ok w (wt_pl (w_wt w t)) r ->
  BI (set_wt w t (mkW (wt_pl (w_wt w t)) (WDone r) (wt_owner (w_wt w t)))).
Proof.
  intros B Ht Hf Hr. set (x := mkW _ _ _). pose proof B as B0. pose proof (frame_set_wt w t x) as F0. destruct B.
  assert (O : forall t', wt_owner (upd (w_wt w) t x t') = wt_owner (w_wt w t')).
  { intros t'. unfold upd. destruct (Nat.eqb_spec t t') as [<-|]; reflexivity. }
  assert (P : forall t', wt_pl (upd (w_wt w) t x t') = wt_pl (w_wt w t')).
  { intros t'. unfold upd. destruct (Nat.eqb_spec t t') as [<-|]; reflexivity. }
  constructor; cbn; auto.
  - intros p t' H. rewrite upd_other; [auto|]. intros ->. now apply Hf in H.
  - intros t' H. rewrite P. auto.
  - intros t' i H. rewrite O, P. intros X. destruct (b_own0 _ _ H X) as [A1 [A2 A3]]. split; [exact A1|]. split; [exact A2|].
    unfold upd. destruct (Nat.eqb_spec t t'); [exact Logic.I|exact A3].
  - intros t1 t2 i H1 H2. rewrite !O. intros. eapply b_own2; eauto.
  - intros i t'. rewrite O. auto.
  - intros t' r' H. rewrite P. unfold upd. destruct (Nat.eqb_spec t t') as [<-|]; [|intros X; eapply result_frame; eauto].
    cbn. intros X. injection X as <-. eapply result_frame; eauto.
  - intros t' H. rewrite P. unfold upd. destruct (Nat.eqb_spec t t') as [<-|]; [discriminate|]. auto.
  - apply (fin_frame _ _ (frame_set_wt w t x)); auto.
Qed.
Lemma BI_wt_wait w t p : BI w -> t < w_nw w -> p = wt_pl (w_wt w t) -> wt_phase (w_wt w t) = WReady -> pl_running w p = true ->
  BI (set_wt (set_pl w p (mkP (p_items (w_pl w p)) (Some t) (p_susp (w_pl w p)) (p_finished (w_pl w p)) (p_inter (w_pl w p)) (p_bad (w_pl w p)) (p_cleaned (w_pl w p))))
             t (mkW p WWait (wt_owner (w_wt w t)))).
Proof.
  intros B Ht Hp Hph Hr. remember (mkW p WWait (wt_owner (w_wt w t))) as x eqn:Ex.
  remember (mkP (p_items (w_pl w p)) (Some t) (p_susp (w_pl w p)) (p_finished (w_pl w p)) (p_inter (w_pl w p)) (p_bad (w_pl w p)) (p_cleaned (w_pl w p))) as y eqn:Ey.
  assert (Hc : pcore y (w_pl w p)) by (subst y; repeat split).
  assert (F : frame w (set_wt (set_pl w p y) t x)) by (eapply frame_trans; [|apply frame_set_wt]; apply frame_set_pl; exact Hc).
  pose proof B as B0. destruct B.
  assert (O : forall t', wt_owner (upd (w_wt w) t x t') = wt_owner (w_wt w t')).
  { intros t'. unfold upd. destruct (Nat.eqb_spec t t') as [<-|]; [subst x|]; reflexivity. }
  assert (P : forall t', wt_pl (upd (w_wt w) t x t') = wt_pl (w_wt w t')).
  { intros t'. unfold upd. destruct (Nat.eqb_spec t t') as [<-|]; [subst x; cbn; auto|reflexivity]. }
  assert (PI : forall q, p_items (upd (w_pl w) p y q) = p_items (w_pl w q)).
  { intros q. unfold upd. destruct (Nat.eqb_spec p q) as [<-|]; [subst y|]; reflexivity. }
  assert (PB : forall q, p_bad (upd (w_pl w) p y q) = p_bad (w_pl w q)).
  { intros q. unfold upd. destruct (Nat.eqb_spec p q) as [<-|]; [subst y|]; reflexivity. }
  assert (PF : forall q, p_finished (upd (w_pl w) p y q) = p_finished (w_pl w q)).
  { intros q. unfold upd. destruct (Nat.eqb_spec p q) as [<-|]; [subst y|]; reflexivity. }
  constructor; cbn; auto.
  - intros q t' H. unfold upd in H. destruct (Nat.eqb_spec p q) as [Epq|Hq].
    + subst y. cbn in H. injection H as <-. rewrite upd_same. subst x. cbn. auto.
    + destruct (b_fut0 _ _ H) as [A [C D]]. assert (t' <> t) by congruence. rewrite upd_other by exact H0. auto.
  - intros q Hq. rewrite upd_other; [auto|]. pose proof (b_wt0 t Ht). lia.
  - intros q i. rewrite PI. auto.
  - intros i. rewrite PI. auto.
  - intros t' H. rewrite P. auto.
  - intros t' i H. rewrite O, P. intros X. destruct (b_own0 _ _ H X) as [A1 [A2 A3]]. split; [exact A1|]. split; [exact A2|].
    unfold upd. destruct (Nat.eqb_spec t t') as [<-|]; [|exact A3]. rewrite Hph in A3. subst x. exact A3.
  - intros t1 t2 i H1 H2. rewrite !O. intros. eapply b_own2; eauto.
  - intros i t'. rewrite O. auto.
  - intros t' r' H. rewrite P. unfold upd. destruct (Nat.eqb_spec t t') as [<-|]; [subst x; discriminate|].
    intros X. eapply result_frame; eauto.
  - intros t' H. rewrite P, PI. unfold upd. destruct (Nat.eqb_spec t t') as [<-|]; [|auto]. intros _ X.
    unfold pl_running in Hr. rewrite Hp, X in Hr. discriminate.
  - apply (fin_frame _ _ F); auto. intros q. cbn. now rewrite PF.
  - intros q. rewrite PI, PB, PF. intros A C D E. apply (plain_frame _ _ q F) in D. auto.
  - intros q. rewrite PF. unfold upd. destruct (Nat.eqb_spec p q) as [<-|]; [subst y; cbn|]; auto.
Qed.

Lemma BI_wait_loop w t : KI w -> BI w -> t < w_nw w -> wt_phase (w_wt w t) = WReady -> BI (wait_loop w t).
Proof.
  intros K B Ht Hph. unfold wait_loop. pose proof (b_wt _ B t Ht) as Hp.
  assert (NF : forall p, p_future (w_pl w p) <> Some t).
  { intros p X. destruct (b_fut _ B _ _ X) as [_ [_ Y]]. congruence. }
  destruct (negb (p_susp (w_pl w (wt_pl (w_wt w t)))) && pl_running w (wt_pl (w_wt w t))) eqn:E.
  - apply andb_true_iff in E. destruct E as [_ E]. now apply BI_wt_wait.
  - set (rr := if p_susp _ then _ else _).
    assert (G : BI (fst rr) /\ KI (fst rr) /\ frame w (fst rr) /\ w_wt (fst rr) = w_wt w /\ w_nw (fst rr) = w_nw w /\
      (forall p, p_future (w_pl (fst rr) p) <> Some t) /\ result_ok (fst rr) (wt_pl (w_wt w t)) (snd rr)).
    { unfold rr. destruct (p_susp (w_pl w (wt_pl (w_wt w t)))) eqn:Es; cbn [fst snd].
      - split; [now apply BI_suspend|]. split; [eapply KI_frame; [apply frame_suspend|exact K]|]. split; [apply frame_suspend|].
        assert (W : forall l w0, w_wt (fold_left (signal_item SIGSTOP) l w0) = w_wt w0 /\ w_nw (fold_left (signal_item SIGSTOP) l w0) = w_nw w0 /\ w_pl (fold_left (signal_item SIGSTOP) l w0) = w_pl w0).
        { induction l as [|i l IH]; intros w0; cbn; [auto|]. destruct (IH (signal_item SIGSTOP w0 i)) as [-> [-> ->]].
          unfold signal_item. destruct (i_kind (w_item w0 i)); auto. }
        unfold pl_suspend. destruct (W (p_items (w_pl w (wt_pl (w_wt w t)))) (set_susp w (wt_pl (w_wt w t)) true)) as [-> [-> ->]].
        split; [reflexivity|]. split; [reflexivity|]. split; [|apply suspend_stops].
        intros p. cbn. unfold upd. destruct (Nat.eqb_spec (wt_pl (w_wt w t)) p) as [<-|]; cbn; apply NF.
      - cbn in E. destruct (pl_failed w (wt_pl (w_wt w t))) eqn:Ef; cbn [fst snd];
          (split; [exact B|]; split; [exact K|]; split; [apply frame_refl|]; split; [reflexivity|]; split; [reflexivity|]; split; [exact NF|]);
          apply result_now; auto; discriminate. }
    destruct rr as [w1 r]. cbn [fst snd] in G. destruct G as [B1 [K1 [F1 [W1 [N1 [NF1 R1]]]]]].
    assert (B2 : BI (set_wt (set_current w1 None) t (mkW (wt_pl (w_wt w t)) (WDone r) (wt_owner (w_wt w t))))).
    { rewrite <- W1. apply (BI_wt_done (set_current w1 None) t r); cbn; auto.
      - apply BI_current; [exact B1|discriminate].
      - lia.
      - rewrite W1. eapply (result_frame w1); [exact B1|apply frame_set_current| |exact R1]. rewrite (f_np _ _ F1). exact Hp. }
    set (w2 := set_wt _ _ _) in *.
    destruct (wt_owner (w_wt w t)) as [i|] eqn:Eo; [|exact B2].
    destruct (b_own _ B t i Ht Eo) as [Hi [Hk _]].
    assert (F2 : frame w w2).
    { eapply frame_trans; [exact F1|]. eapply frame_trans; [|apply frame_set_wt]. apply frame_set_current. }
    assert (Hk2 : i_kind (w_item w2 i) = KFg (wt_pl (w_wt w t))) by (destruct (f_item _ _ F2 i) as [-> _]; exact Hk).
    assert (Hi2 : i < w_ni w2) by (rewrite (f_ni _ _ F2); exact Hi).
    assert (Ow : forall t', t' < w_nw w2 -> wt_owner (w_wt w2 t') = Some i -> t' = t).
    { intros t' A C. eapply (b_own1 _ B2); eauto. { unfold w2; cbn; lia. } unfold w2; cbn. now rewrite upd_same. }
    assert (X : forall tk, tk <> TNew -> BI (set_item w2 i (mkI (i_kind (w_item w2 i)) (i_pl (w_item w2 i)) (i_last (w_item w2 i)) (i_done (w_item w2 i)) tk (i_seen (w_item w2 i))))).
    { intros tk Hn. eapply BI_fg_item; eauto. intros t' A C. rewrite (Ow t' A C). unfold w2. cbn. now rewrite upd_same. }
    destruct r; [|apply X; discriminate|apply X; discriminate].
    apply BI_hf; [apply X; discriminate|]. cbn. apply (b_ipl _ B2 i Hi2).
Qed.

Lemma signals_same s l : forall w0, w_wt (fold_left (signal_item s) l w0) = w_wt w0 /\ w_nw (fold_left (signal_item s) l w0) = w_nw w0 /\
  w_pl (fold_left (signal_item s) l w0) = w_pl w0 /\ w_item (fold_left (signal_item s) l w0) = w_item w0 /\ w_current (fold_left (signal_item s) l w0) = w_current w0.
Proof.
  induction l as [|i l IH]; intros w0; cbn; [auto 6|]. destruct (IH (signal_item s w0 i)) as [-> [-> [-> [-> ->]]]].
  unfold signal_item. destruct (i_kind (w_item w0 i)); auto 6.
Qed.
Lemma BI_new_wt w p o : BI w -> p < w_np w ->
  (forall i, o = Some i -> i < w_ni w /\ i_kind (w_item w i) = KFg p /\ i_task (w_item w i) = TWait /\ forall t, t < w_nw w -> wt_owner (w_wt w t) <> Some i) ->
  BI (set_wts w (upd (w_wt w) (w_nw w) (mkW p WReady o)) (S (w_nw w))).
Proof.
  intros B Hp Ho. set (x := mkW p WReady o).
  assert (F : frame w (set_wts w (upd (w_wt w) (w_nw w) x) (S (w_nw w)))) by (constructor; cbn; auto using incl_refl; intros; apply core_refl || apply pcore_refl).
  pose proof B as B0. destruct B. constructor; cbn; auto.
  - intros q t H. destruct (b_fut0 _ _ H) as [A C]. rewrite upd_other by lia. split; [lia|exact C].
  - intros t H. unfold upd. destruct (Nat.eqb_spec (w_nw w) t) as [<-|]; [exact Hp|]. apply b_wt0. lia.
  - intros t i H. unfold upd. destruct (Nat.eqb_spec (w_nw w) t) as [<-|].
    + cbn. intros X. destruct (Ho i X) as [A [C [D _]]]. auto.
    + apply b_own0. lia.
  - intros t1 t2 i H1 H2. unfold upd. destruct (Nat.eqb_spec (w_nw w) t1) as [E1|E1], (Nat.eqb_spec (w_nw w) t2) as [E2|E2]; cbn; intros X Y.
    + lia.
    + exfalso. destruct (Ho i X) as [_ [_ [_ Z]]]. apply (Z t2); [lia|exact Y].
    + exfalso. destruct (Ho i Y) as [_ [_ [_ Z]]]. apply (Z t1); [lia|exact X].
    + eapply b_own2; eauto; lia.
  - intros i t X H. unfold upd. destruct (Nat.eqb_spec (w_nw w) t) as [<-|]; [cbn|apply b_new0; [exact X|lia]].
    intros Y. destruct (Ho i Y) as [_ [_ [Z _]]]. congruence.
  - intros t r H. unfold upd. destruct (Nat.eqb_spec (w_nw w) t) as [<-|]; [discriminate|]. intros X.
    eapply result_frame; eauto; [apply b_wt0; lia|apply b_done0; auto; lia].
  - intros t H. unfold upd. destruct (Nat.eqb_spec (w_nw w) t) as [<-|]; [discriminate|]. apply b_wait0. lia.
  - apply (fin_frame _ _ F); auto.
Qed.
Lemma wait_begin_pre w p o : KI w -> BI w -> p < w_np w ->
  (forall i, o = Some i -> i < w_ni w /\ i_kind (w_item w i) = KFg p /\ i_task (w_item w i) = TWait /\ forall t, t < w_nw w -> wt_owner (w_wt w t) <> Some i) ->
  let w1 := set_wts w (upd (w_wt w) (w_nw w) (mkW p WReady o)) (S (w_nw w)) in
  let w2 := if p_inter (w_pl w1 p) then set_current w1 (Some p) else w1 in
  let w3 := pl_restart w2 p in
  KI w3 /\ BI w3 /\ w_wt w3 = w_wt w1 /\ w_nw w3 = S (w_nw w) /\ frame w w3 /\ jrel w w3.
Proof.
  intros K B Hp Ho. intros w1 w2 w3.
  assert (F1 : frame w w1) by (constructor; cbn; auto using incl_refl; intros; apply core_refl || apply pcore_refl).
  assert (B1 : BI w1) by (now apply BI_new_wt).
  assert (J1 : jrel w w1) by (constructor; cbn; auto).
  assert (G : frame w w2 /\ BI w2 /\ jrel w w2 /\ w_wt w2 = w_wt w1 /\ w_nw w2 = S (w_nw w)).
  { unfold w2. destruct (p_inter (w_pl w1 p)).
    - split; [eapply frame_trans; [exact F1|apply frame_set_current]|]. split; [apply BI_current; [exact B1|intros q X; injection X as <-; exact Hp]|].
      split; [eapply jrel_trans; [exact J1|apply jrel_set_current]|]. split; reflexivity.
    - split; [exact F1|]. split; [exact B1|]. split; [exact J1|]. split; reflexivity. }
  destruct G as [F2 [B2 [J2 [W2 N2]]]].
  assert (F3 : frame w w3) by (eapply frame_trans; [exact F2|apply frame_restart]).
  split; [eapply KI_frame; eauto|]. split; [apply BI_restart; [exact B2|rewrite (f_np _ _ F2); exact Hp]|].
  unfold w3, pl_restart. destruct (signals_same SIGCONT (p_items (w_pl w2 p)) (set_susp w2 p false)) as [-> [-> _]]. cbn.
  split; [exact W2|]. split; [exact N2|]. split; [exact F3|]. eapply jrel_trans; [exact J2|apply jrel_restart].
Qed.
Lemma BI_wait_begin w p o : KI w -> BI w -> p < w_np w ->
  (forall i, o = Some i -> i < w_ni w /\ i_kind (w_item w i) = KFg p /\ i_task (w_item w i) = TWait /\ forall t, t < w_nw w -> wt_owner (w_wt w t) <> Some i) ->
  BI (wait_begin w p o) /\ jrel w (wait_begin w p o).
Proof.
  intros K B Hp Ho. destruct (wait_begin_pre w p o K B Hp Ho) as [K3 [B3 [W3 [N3 [F3 J3]]]]].
  unfold wait_begin. set (w3 := pl_restart _ _) in *.
  assert (E : w_wt w3 (w_nw w) = mkW p WReady o) by (rewrite W3; cbn; now rewrite upd_same).
  split; [apply BI_wait_loop; auto; [lia|now rewrite E]|].
  eapply jrel_trans; [exact J3|]. apply jrel_wait_loop. rewrite E. cbn. intros i X. destruct (Ho i X) as [_ [Y _]].
  exists p. destruct (f_item _ _ F3 i) as [-> _]. exact Y.
Qed.

(** The task of a command or function. *)
Lemma BI_task w i tk : BI w -> i < w_ni w -> (forall q, i_kind (w_item w i) <> KFg q) ->
  match tk with TNew => False | TWait => True | TEnded => i_done (w_item w i) = Some false | TDead => i_done (w_item w i) = Some true end ->
  BI (set_item w i (mkI (i_kind (w_item w i)) (i_pl (w_item w i)) (i_last (w_item w i)) (i_done (w_item w i)) tk (i_seen (w_item w i)))).
Proof.
  intros B Hi Hk Htk. set (x := mkI _ _ _ _ _ _).
  assert (Hc : core x (w_item w i)) by repeat split.
  pose proof (frame_set_item w i x Hc) as F. pose proof B as B0. destruct B.
  assert (KD : forall j, i_kind (upd (w_item w) i x j) = i_kind (w_item w j)).
  { intros j. unfold upd. destruct (Nat.eqb_spec i j) as [<-|]; reflexivity. }
  assert (PL : forall j, i_pl (upd (w_item w) i x j) = i_pl (w_item w j)).
  { intros j. unfold upd. destruct (Nat.eqb_spec i j) as [<-|]; reflexivity. }
  constructor; cbn; auto.
  - intros p j. rewrite PL. auto.
  - intros j. rewrite PL. auto.
  - intros j q'. rewrite PL, KD. auto.
  - intros t j H1 H2. rewrite KD. destruct (b_own0 t j H1 H2) as [A1 [A2 A3]]. split; [exact A1|]. split; [exact A2|].
    rewrite upd_other; [exact A3|]. intros ->. now apply Hk in A2.
  - intros j t. unfold upd. destruct (Nat.eqb_spec i j) as [<-|]; [cbn; intros ->; destruct Htk|auto].
  - intros j Hj. rewrite KD. unfold upd. destruct (Nat.eqb_spec i j) as [<-|]; [|exact (b_task0 j Hj)]. intros _. cbn.
    destruct tk; auto.
  - intros t r A C. eapply result_frame; eauto.
  - apply (fin_frame _ _ F); auto.
  - intros p A C D. apply (plain_frame _ _ p F) in D. auto.
Qed.
Lemma JI_ended w i : BI w -> JI w -> i < w_ni w -> (forall q, i_kind (w_item w i) <> KFg q) -> i_done (w_item w i) = Some false ->
  JI (handle_finish (set_item w i (mkI (i_kind (w_item w i)) (i_pl (w_item w i)) (i_last (w_item w i)) (i_done (w_item w i)) TEnded (i_seen (w_item w i)))) (i_pl (w_item w i))).
Proof.
  intros B J Hi Hk Hd. pose proof (BI_task w i TEnded B Hi Hk Hd) as B1. set (w1 := set_item w i _) in *.
  assert (F : frame w w1) by (apply frame_set_item; repeat split).
  pose proof (jrel_hf w1 (i_pl (w_item w i))) as R. pose proof (j_frame _ _ R) as FR.
  set (p0 := i_pl (w_item w i)) in *. intros p A C D E.
  destruct (f_pl _ _ FR p) as [P1 [_ P3]]. rewrite P1 in A. rewrite P3 in D. apply (plain_frame _ _ _ FR) in C.
  assert (E1 : all_ended w1 p).
  { intros j Hj. rewrite <- (j_task _ _ R); [apply E; now rewrite P1|]. intros q Hq. specialize (C j Hj). now rewrite Hq in C. }
  destruct (Nat.eq_dec p p0) as [->|Hp].
  - assert (Nr : pl_running w1 p0 = false).
    { apply not_running_plain; [exact C|]. intros j Hj. destruct (b_items _ B1 _ _ Hj) as [Y _].
      assert (Z : forall q, i_kind (w_item w1 j) <> KFg q) by (intros q Hq; specialize (C j Hj); now rewrite Hq in C).
      pose proof (b_task _ B1 j Y Z) as T. rewrite (E1 j Hj) in T. congruence. }
    unfold handle_finish. rewrite Nr. cbn [negb andb]. rewrite D.
    assert (W : forall w0, p_future (w_pl (wake w0 p0) p0) = None /\ p_finished (w_pl (wake w0 p0) p0) = p_finished (w_pl w0 p0)).
    { intros w0. unfold wake. destruct (p_future (w_pl w0 p0)) eqn:Ef; cbn; [|auto]. now rewrite upd_same. }
    destruct (p_finished (w_pl w1 p0)) eqn:Ef; cbn [negb].
    + destruct (W w1) as [W1 W2]. now rewrite W1, W2.
    + destruct (W (set_running (set_pl w1 p0 (mkP (p_items (w_pl w1 p0)) (p_future (w_pl w1 p0)) (p_susp (w_pl w1 p0)) true (p_inter (w_pl w1 p0)) false (S (p_cleaned (w_pl w1 p0)))))
        (remove_first (w_running w1) p0))) as [W1 W2].
      cbn in W1, W2. rewrite upd_same in W2. cbn in W2. split; [exact W1|exact W2].
  - assert (C0 : plain w p) by now apply (plain_frame _ _ _ F).
    assert (E0 : all_ended w p).
    { intros j Hj. specialize (E1 j Hj). cbn in E1. unfold upd in E1. destruct (Nat.eqb_spec i j) as [Eij|]; [|exact E1].
      exfalso. apply Hp. destruct (b_items _ B _ _ Hj) as [_ Y]. unfold p0. rewrite Eij. now symmetry. }
    destruct (J p A C0 D E0) as [J1 J2].
    assert (X : p_future (w_pl w1 p) = None /\ p_finished (w_pl w1 p) = true) by (split; [exact J1|exact J2]).
    destruct X as [X1 X2]. split; [|now apply (j_fin _ _ R)].
    destruct (p_future (w_pl (handle_finish w1 p0) p)) as [t|] eqn:Ef; [|reflexivity]. destruct (j_fut _ _ R p t Ef) as [Y|Y]; [congruence|].
    exfalso. rewrite <- Bool.not_false_iff_true in Y. apply Y. apply not_running_plain; [exact C|]. intros j Hj.
    destruct (b_items _ B1 _ _ Hj) as [Z _]. assert (V : forall q, i_kind (w_item w1 j) <> KFg q).
    { intros q Hq. specialize (C j Hj). now rewrite Hq in C. }
    pose proof (b_task _ B1 j Z V) as T. rewrite (E1 j Hj) in T. congruence.
Qed.
Lemma JI_dead w i : BI w -> JI w -> i_task (w_item w i) <> TEnded -> 
  JI (set_item w i (mkI (i_kind (w_item w i)) (i_pl (w_item w i)) (i_last (w_item w i)) (i_done (w_item w i)) TDead (i_seen (w_item w i)))).
Proof.
  intros B J Ht. set (w1 := set_item w i _). assert (F : frame w w1) by (apply frame_set_item; repeat split).
  intros p A C D E. apply (plain_frame _ _ _ F) in C. apply (J p A C D).
  intros j Hj. specialize (E j Hj). cbn in E. unfold upd in E. destruct (Nat.eqb_spec i j) as [Eij|]; [discriminate|exact E].
Qed.

(** ** Starting *)
Definition new_item (p : nat) (s : sitem) : item :=
  match s with
  | SProc pid => mkI (KProc pid) p None None TWait []
  | SFun => mkI KFun p None None TWait []
  | SFg q => mkI (KFg q) p None None TNew []
  end.
Lemma start_items_spec p : forall ss w, let w1 := fold_left (start_item p) ss w in
  w_pl w1 = w_pl w /\ w_np w1 = w_np w /\ w_wt w1 = w_wt w /\ w_nw w1 = w_nw w /\ w_running w1 = w_running w /\
  w_current w1 = w_current w /\ w_kills w1 = w_kills w /\ w_hist w1 = w_hist w /\ w_chld w1 = w_chld w /\ w_reaping w1 = w_reaping w /\
  w_ni w1 = w_ni w + List.length ss /\
  (forall i, i < w_ni w -> w_item w1 i = w_item w i) /\
  (forall i, w_ni w1 <= i -> w_item w1 i = w_item w i) /\
  (forall k s, nth_error ss k = Some s -> w_item w1 (w_ni w + k) = new_item p s).
Proof.
  induction ss as [|s ss IH]; intros w w1.
  - cbn in *. repeat split; auto; try lia. intros k s X. destruct k; discriminate.
  - cbn [fold_left] in w1. destruct (IH (start_item p w s)) as [E1 [E2 [E3 [E4 [E5 [E6 [E7 [E8 [E9 [E10 [E11 [E12 [E14 E13]]]]]]]]]]]]].
    assert (N : w_ni (start_item p w s) = S (w_ni w)) by (destruct s; reflexivity).
    assert (I : w_item (start_item p w s) = upd (w_item w) (w_ni w) (new_item p s)) by (destruct s; reflexivity).
    unfold w1. rewrite E1, E2, E3, E4, E5, E6, E7, E8, E9, E10, E11, N.
    repeat split; try (destruct s; reflexivity); try (cbn; lia).
    + intros i Hi. rewrite E12 by lia. rewrite I. apply upd_other. lia.
    + intros i Hi. rewrite E14 by lia. rewrite I. apply upd_other. cbn in Hi. lia.
    + intros k s0 X. destruct k as [|k]; cbn in X.
      * injection X as ->. rewrite Nat.add_0_r. rewrite E12 by lia. rewrite I. apply upd_same.
      * replace (w_ni w + S k) with (w_ni (start_item p w s) + k) by lia. now apply E13.
Qed.
Lemma startable_fg w : forall ss used q, startable w used ss = true -> In (SFg q) ss -> q < w_np w.
Proof.
  induction ss as [|s ss IH]; intros used q H; [intros []|]. intros [X|X].
  - subst s. cbn in H. apply andb_true_iff in H. destruct H as [H _]. now apply Nat.ltb_lt in H.
  - destruct s; cbn in H; repeat (apply andb_true_iff in H; destruct H as [H ?]); eauto.
Qed.
Lemma remove_first_notin l p : ~ In p l -> remove_first l p = l.
Proof.
  induction l as [|x l IH]; cbn; [reflexivity|]. intros H. destruct (Nat.eqb_spec x p) as [->|]; [destruct H; auto|].
  fold (remove_first l p). rewrite IH; auto.
Qed.
Record started (w w' : world) (ss : list sitem) (bad : bool) : Prop := {
  s_wt : w_wt w' = w_wt w; s_nw : w_nw w' = w_nw w; s_cur : w_current w' = w_current w; s_kills : w_kills w' = w_kills w;
  s_hist : w_hist w' = w_hist w; s_np : w_np w' = S (w_np w); s_ni : w_ni w' = w_ni w + List.length ss;
  s_run : w_running w' = w_running w ++ [w_np w]; s_reaping : w_reaping w' = w_reaping w; s_chld : w_chld w' = w_chld w;
  s_old : forall i, i < w_ni w -> w_item w' i = w_item w i;
  s_beyond : forall i, w_ni w' <= i -> w_item w' i = w_item w i;
  s_new : forall k s, nth_error ss k = Some s -> w_item w' (w_ni w + k) = new_item (w_np w) s;
  s_pl : forall p, p <> w_np w -> w_pl w' p = w_pl w p;
  s_this : exists fin inter, w_pl w' (w_np w) = mkP (seq (w_ni w) (List.length ss)) None false fin inter bad (if fin then 1 else 0) /\
    (fin = true -> pl_running w' (w_np w) = false) }.
Lemma start_started w ss inter bad : BI w -> started w (do_start w ss inter bad) ss bad.
Proof.
  intros B. unfold do_start. set (p := w_np w).
  destruct (start_items_spec p ss w) as [E1 [E2 [E3 [E4 [E5 [E6 [E7 [E8 [E9 [E10 [E11 [E12 [E14 E13]]]]]]]]]]]]].
  set (w1 := fold_left (start_item p) ss w) in *.
  set (w2 := set_pls w1 _ _).
  assert (Np : ~ In p (w_running w2)).
  { cbn. rewrite E5. intros X. apply (b_rnp _ B) in X. unfold p in X. lia. }
  assert (P2 : w_pl w2 p = mkP (seq (w_ni w) (List.length ss)) None false false inter bad 0) by (cbn; apply upd_same).
  assert (O2 : forall q, q <> p -> w_pl w2 q = w_pl w q) by (intros q Hq; cbn; rewrite upd_other, E1 by exact Hq; reflexivity).
  set (w3 := handle_finish w2 p).
  assert (F3 : frame w2 w3) by apply frame_hf.
  set (w4 := set_running w3 (w_running w3 ++ [p])).
  assert (F4 : frame w2 w4) by (eapply frame_trans; [exact F3|apply frame_set_running]).
  assert (H : w_wt w3 = w_wt w2 /\ w_nw w3 = w_nw w2 /\ w_current w3 = w_current w2 /\ w_kills w3 = w_kills w2 /\ w_item w3 = w_item w2 /\
    w_running w3 = w_running w2 /\ (forall q, q <> p -> w_pl w3 q = w_pl w2 q) /\
    exists fin, w_pl w3 p = mkP (seq (w_ni w) (List.length ss)) None false fin inter bad (if fin then 1 else 0) /\ (fin = true -> pl_running w2 p = false)).
  { unfold w3, handle_finish, wake. rewrite P2. cbn [p_future p_finished p_bad p_items p_susp p_inter p_cleaned].
    destruct (pl_running w2 p) eqn:Er; cbn [negb andb].
    - repeat (split; [reflexivity|]). exists false. split; [exact P2|discriminate].
    - destruct bad.
      + repeat (split; [reflexivity|]). split; [intros q Hq; cbn; now rewrite upd_other|]. exists true. cbn. now rewrite upd_same.
      + cbn [w_pl set_running set_pl set_pls p_future]. rewrite upd_same. cbn [p_future].
        repeat (split; [reflexivity|]). split; [cbn; now apply remove_first_notin|].
        split; [intros q Hq; cbn; now rewrite upd_other|]. exists true. cbn. now rewrite upd_same. }
  destruct H as [H1 [H2 [H3 [H4 [H5 [H6 [H7 [fin [H8 H9]]]]]]]]].
  constructor; unfold w4; cbn [w_wt w_nw w_current w_kills w_hist w_np w_ni w_running w_reaping w_chld w_item w_pl set_running].
  - rewrite H1. exact E3.
  - rewrite H2. exact E4.
  - rewrite H3. exact E6.
  - rewrite H4. exact E7.
  - rewrite (f_hist _ _ F3). exact E8.
  - rewrite (f_np _ _ F3). reflexivity.
  - rewrite (f_ni _ _ F3). exact E11.
  - rewrite H6. cbn. now rewrite E5.
  - rewrite (f_reaping _ _ F3). exact E10.
  - rewrite (f_chld _ _ F3). exact E9.
  - intros i Hi. rewrite H5. now apply E12.
  - intros i Hi. rewrite H5. apply E14. now rewrite (f_ni _ _ F3) in Hi.
  - intros k s X. rewrite H5. now apply E13.
  - intros q Hq. rewrite H7 by exact Hq. now apply O2.
  - exists fin, inter. split; [exact H8|]. intros X. change (pl_running w4 p = false). rewrite (frame_pl_running _ _ p F4). auto.
Qed.

Lemma started_mono w w' ss bad : started w w' ss bad -> mono w w'.
Proof.
  intros S. constructor.
  - intros i Hi. now rewrite (s_old _ _ _ _ S).
  - intros i b Hi. now rewrite (s_old _ _ _ _ S).
  - intros. now rewrite (s_hist _ _ _ _ S).
  - intros p Hp. rewrite (s_pl _ _ _ _ S) by lia. reflexivity.
  - rewrite (s_kills _ _ _ _ S). apply incl_refl.
Qed.
Lemma started_items w w' ss bad i : started w w' ss bad -> i < w_ni w' ->
  i < w_ni w \/ exists s, In s ss /\ w_item w' i = new_item (w_np w) s /\ w_ni w <= i.
Proof.
  intros S Hi. destruct (Nat.lt_ge_cases i (w_ni w)) as [H|H]; [now left|right].
  rewrite (s_ni _ _ _ _ S) in Hi. destruct (nth_error ss (i - w_ni w)) as [s|] eqn:E.
  - exists s. split; [now apply nth_error_In in E|]. split; [|exact H]. rewrite <- (s_new _ _ _ _ S _ _ E). f_equal. lia.
  - apply nth_error_None in E. lia.
Qed.
Lemma started_plain w w' ss bad p : BI w -> started w w' ss bad -> p < w_np w -> plain w' p <-> plain w p.
Proof.
  intros B S Hp. unfold plain. rewrite (s_pl _ _ _ _ S) by lia.
  split; intros H i Hi; specialize (H i Hi); apply (b_items _ B) in Hi; destruct Hi as [Hi _];
    [rewrite (s_old _ _ _ _ S) in H by exact Hi|rewrite (s_old _ _ _ _ S) by exact Hi]; exact H.
Qed.
Lemma new_undone p s : i_done (new_item p s) = None. Proof. destruct s; reflexivity. Qed.
Lemma started_running_new w w' ss bad : started w w' ss bad -> plain w' (w_np w) -> p_items (w_pl w' (w_np w)) <> [] -> pl_running w' (w_np w) = true.
Proof.
  intros S Pl Hne. rewrite pl_running_plain by exact Pl. destruct (s_this _ _ _ _ S) as [fin [inter [E _]]]. rewrite E in *. cbn in *.
  destruct ss as [|s ss]; cbn in *; [congruence|]. unfold undone.
  pose proof (s_new _ _ _ _ S 0 s eq_refl) as X. rewrite Nat.add_0_r in X. rewrite X, new_undone. reflexivity.
Qed.
Lemma BI_started w w' ss bad : BI w -> started w w' ss bad -> (forall q, In (SFg q) ss -> q < w_np w) -> BI w'.
Proof.
  intros B S Hfg. pose proof (started_mono _ _ _ _ S) as M.
  assert (It : forall i, i < w_ni w' -> i < w_ni w \/ exists s, In s ss /\ w_item w' i = new_item (w_np w) s /\ w_ni w <= i)
    by (intros i; now apply (started_items _ _ _ _ _ S)).
  pose proof (started_running_new _ _ _ _ S) as RN. pose proof (fun p => started_plain _ _ _ _ p B S) as SP.
  pose proof S as S0. pose proof B as B0. destruct S, B. destruct s_this0 as [fin [inter [Ep Ef]]].
  assert (P : forall p, (p = w_np w /\ w_pl w' p = mkP (seq (w_ni w) (List.length ss)) None false fin inter bad (if fin then 1 else 0)) \/ (p <> w_np w /\ w_pl w' p = w_pl w p)).
  { intros p. destruct (Nat.eq_dec p (w_np w)) as [->|H]; [left; auto|right; auto]. }
  constructor; rewrite ?s_wt0, ?s_nw0, ?s_cur0; auto.
  - intros p t X. destruct (P p) as [[-> E]|[_ E]]; rewrite E in X; [discriminate|auto].
  - intros p Hp. destruct (P p) as [[-> E]|[_ E]]; [lia|]. rewrite E. apply b_pl0. lia.
  - intros p i X. destruct (P p) as [[-> E]|[Hn E]]; rewrite E in X.
    + cbn in X. apply in_seq in X. split; [lia|]. destruct (It i) as [Y|[s [_ [Y _]]]]; [lia|lia|]. rewrite Y. now destruct s.
    + destruct (b_items0 p i X). split; [lia|]. now rewrite s_old0.
  - intros i Hi. destruct (It i Hi) as [Y|[s [_ [Y Z]]]].
    + rewrite s_old0 by exact Y. destruct (b_ipl0 i Y) as [A C]. split; [lia|]. rewrite s_pl0 by lia. exact C.
    + assert (X : i_pl (w_item w' i) = w_np w) by (rewrite Y; now destruct s). rewrite X. split; [lia|]. rewrite Ep. cbn. apply in_seq. lia.
  - intros i q Hi. destruct (It i Hi) as [Y|[s [Hs [Y Z]]]].
    + rewrite s_old0 by exact Y. now apply b_fg0.
    + rewrite Y. destruct s; cbn; try discriminate. intros X. injection X as ->. auto.
  - intros t Ht. specialize (b_wt0 t Ht). lia.
  - intros t i Ht Ho. destruct (b_own0 t i Ht Ho) as [A C]. rewrite s_old0 by exact A. split; [lia|exact C].
  - intros i t X Ht Ho. destruct (b_own0 t i Ht Ho) as [A _]. rewrite s_old0 in X by exact A. now apply (b_new0 i t X Ht).
  - intros p X. specialize (b_cur0 p X). lia.
  - intros i Hi Hk. destruct (It i Hi) as [Y|[s [Hs [Y Z]]]].
    + rewrite s_old0 in * by exact Y. now apply b_task0.
    + rewrite Y in *. destruct s; cbn in *; auto. now destruct (Hk p).
  - intros t r Ht Hr. eapply result_mono; eauto. now apply BI_closed.
  - intros t Ht Hr. specialize (b_wait0 t Ht Hr). rewrite s_pl0; [exact b_wait0|]. specialize (b_wt0 t Ht). lia.
  - intros p Hf Pl. destruct (P p) as [[-> E]|[Hn E]].
    + rewrite E in Hf. cbn in Hf. auto.
    + destruct (Nat.lt_ge_cases p (w_np w)) as [Hp|Hp].
      * rewrite E in Hf. apply not_running_plain; [exact Pl|]. apply SP in Pl; [|exact Hp]. specialize (b_fin0 p Hf Pl).
        rewrite not_running_plain in b_fin0 by exact Pl. intros i Hi. rewrite E in Hi. destruct (b_items0 p i Hi) as [Hi' _].
        rewrite s_old0 by exact Hi'. auto.
      * rewrite E, b_pl0 in Hf by lia. discriminate.
  - rewrite s_run0. apply NoDup_snoc; [exact b_rnd0|]. intros X. apply b_rnp0 in X. lia.
  - intros p X. rewrite s_run0 in X. apply in_app_or in X. destruct X as [X|[X|[]]]; [apply b_rnp0 in X; lia|lia].
  - intros p Hp Hne Pl Hb. rewrite s_run0, in_app_iff. destruct (P p) as [[-> E]|[Hn E]].
    + rewrite E in *. cbn in *. split; [intros _|auto]. destruct fin; [|reflexivity]. rewrite RN in Ef; auto.
    + assert (Hp' : p < w_np w) by lia. apply SP in Pl; [|exact Hp']. rewrite E in *. rewrite <- (b_run0 p Hp' Hne Pl Hb).
      cbn. split; [intros [X|[X|[]]]; [exact X|congruence]|auto].
  - intros p. destruct (P p) as [[-> E]|[Hn E]]; rewrite E; [reflexivity|auto].
Qed.
Lemma JI_started w w' ss bad : BI w -> JI w -> started w w' ss bad -> JI w'.
Proof.
  intros B J S p A Pl D E. destruct (Nat.eq_dec p (w_np w)) as [->|Hn].
  - exfalso. destruct (s_this _ _ _ _ S) as [fin [inter [Ep Ef]]]. destruct ss as [|s ss].
    + rewrite Ep in A. now apply A.
    + pose proof (s_new _ _ _ _ S 0 s eq_refl) as X. rewrite Nat.add_0_r in X. specialize (E (w_ni w)). rewrite X in E.
      rewrite Ep in E. cbn in E. specialize (E (or_introl eq_refl)). destruct s; discriminate.
  - assert (Hp : p < w_np w).
    { destruct (Nat.lt_ge_cases p (w_np w)) as [Hp|Hp]; [exact Hp|]. rewrite (s_pl _ _ _ _ S), (b_pl _ B) in A by lia. now destruct A. }
    apply (started_plain _ _ _ _ p B S Hp) in Pl. rewrite (s_pl _ _ _ _ S) in * by exact Hn. apply J; auto.
    intros i Hi. destruct (b_items _ B _ _ Hi) as [Y _]. rewrite <- (s_old _ _ _ _ S) by exact Y. apply E. now rewrite (s_pl _ _ _ _ S).
Qed.
