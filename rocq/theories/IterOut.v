(** Proofs about the output handler and about a function feeding another. *)
From Verif Require Import Py IterModel IterSpec IterProofs.

Lemma full_nofail l : full l -> nofail l.
Proof. destruct l as [| |[| |]]; cbn; auto. Qed.

Record OInv (items : list (option bytes)) (e : iend) (s : ostate) : Prop := {
  oi_items : exists k, o_items s = skipn k items;
  oi_late : o_late s = 0;
  oi_closes : o_closes s = if o_open s then 0 else 1;
  oi_inflight : o_inflight s = if o_open s && o_lock s then 1 else 0;
  oi_opened : o_open s = true -> o_end s = e /\ o_done s = None;
  oi_closed : o_open s = false -> o_lock s = true /\ o_items s = [] /\ o_done s = Some (end_result e) }.

Lemma OInv_init items e : OInv items e (o_init items e).
Proof. constructor; cbn; auto; try discriminate. exists 0. reflexivity. Qed.
Lemma skipn_S {A} k (l : list A) x r : skipn k l = x :: r -> r = skipn (S k) l.
Proof.
  revert l. induction k as [|k IH]; intros l H; [cbn in H; now subst|].
  destruct l as [|y l]; [discriminate|]. exact (IH l H).
Qed.
Lemma OInv_step items e s l s' : OInv items e s -> nofail l -> ostep s l = Some s' -> OInv items e s'.
Proof.
  intros I Hn. destruct l as [| |w]; cbn.
  - destruct (o_open s) eqn:Eo; [|discriminate]. intros X. injection X as <-. destruct I. constructor; cbn; auto.
    + now rewrite Eo in oi_closes0.
    + now rewrite Eo in oi_inflight0.
    + discriminate.
  - destruct (o_tasks s) as [|k]; [discriminate|]. intros X. injection X as <-.
    destruct (o_lock s) eqn:El; destruct I; rewrite El in *; constructor; cbn; auto.
    + rewrite oi_inflight0, andb_false_r. destruct (o_open s) eqn:Eo; [reflexivity|].
      destruct (oi_closed0 eq_refl). congruence.
    + intros X. destruct (oi_closed0 X) as [? _]. congruence.
  - destruct (o_inflight s) as [|k] eqn:Ei; [discriminate|]. intros X. injection X as <-.
    destruct I. destruct oi_items0 as [j Hj]. rewrite Ei in oi_inflight0.
    destruct (o_open s) eqn:Eo; [|discriminate]. destruct (o_lock s) eqn:El; [|discriminate].
    injection oi_inflight0 as ->. destruct (oi_opened0 eq_refl) as [Ee Ed].
    destruct (o_items s) as [|v its] eqn:Es.
    + unfold o_destroy. constructor; cbn; auto.
      * exists (List.length items). now rewrite skipn_all.
      * now rewrite oi_closes0.
      * discriminate.
      * intros _. rewrite Ed, Ee. auto.
    + assert (Hk : exists k, its = skipn k items) by (exists (S j); eapply skipn_S; symmetry; exact Hj).
      destruct v as [b|].
      * unfold o_write. cbn. destruct w as [|n|x]; [| |destruct Hn]; constructor; cbn; auto; discriminate.
      * constructor; cbn; auto; discriminate.
Qed.
Lemma OInv_steps items e ls : forall s s', OInv items e s -> Forall nofail ls -> osteps s ls = Some s' -> OInv items e s'.
Proof.
  induction ls as [|l ls IH]; intros s s' I Hf; cbn.
  - intros X. injection X as <-. exact I.
  - inversion Hf; subst. destruct (ostep s l) as [s1|] eqn:E; [|discriminate]. apply IH; auto. eapply OInv_step; eauto.
Qed.

(** Content, when every write is complete. *)
Lemma rendered_app a b : rendered (a ++ b) = rendered a ++ rendered b.
Proof. unfold rendered. apply flat_map_app. Qed.
Definition content (items : list (option bytes)) (s : ostate) : Prop :=
  exists k, o_items s = skipn k items /\ o_written s = rendered (firstn k items).
Lemma firstn_S {A} k (l : list A) x r : skipn k l = x :: r -> firstn (S k) l = firstn k l ++ [x].
Proof.
  revert l. induction k as [|k IH]; intros l H; [cbn in H; now subst|].
  destruct l as [|y l]; [discriminate|]. cbn [firstn app]. f_equal. exact (IH l H).
Qed.
Lemma content_step items e s l s' : OInv items e s -> content items s -> full l -> ostep s l = Some s' -> content items s'.
Proof.
  intros I [k [H1 H2]] Hf. destruct l as [| |w]; cbn.
  - destruct (o_open s); [|discriminate]. intros X. injection X as <-. exists k. auto.
  - destruct (o_tasks s); [discriminate|]. intros X. injection X as <-. exists k. destruct (o_lock s); auto.
  - destruct (o_inflight s) as [|j] eqn:Ei; [discriminate|]. intros X. injection X as <-.
    destruct (o_items s) as [|v its] eqn:Es.
    + exists k. cbn. auto.
    + exists (S k). rewrite (firstn_S _ _ _ _ (eq_sym H1)), rendered_app, <- H2.
      assert (E : its = skipn (S k) items) by (eapply skipn_S; symmetry; exact H1).
      assert (Eo : o_open s = true).
      { destruct (o_open s) eqn:Eo; [reflexivity|]. pose proof (oi_inflight _ _ _ I) as X. rewrite Eo, Ei in X. discriminate. }
      destruct v as [b|].
      * unfold o_write. cbn. rewrite Eo. destruct w; try destruct Hf. cbn. rewrite app_nil_r. auto.
      * cbn. rewrite app_nil_r. auto.
Qed.
Lemma content_steps items e ls : forall s s', OInv items e s -> content items s -> Forall full ls ->
  osteps s ls = Some s' -> content items s'.
Proof.
  induction ls as [|l ls IH]; intros s s' I C Hf; cbn.
  - intros X. injection X as <-. exact C.
  - inversion Hf; subst. destruct (ostep s l) as [s1|] eqn:E; [|discriminate].
    apply IH; auto; [eapply OInv_step; eauto using full_nofail|eapply content_step; eauto].
Qed.

(** C16 *)
Theorem items_written items e ls s : Forall full ls -> osteps (o_init items e) ls = Some s ->
  (exists k, o_written s = rendered (firstn k items)) /\
  o_inflight s <= 1 /\
  (o_open s = true -> o_closes s = 0 /\ o_done s = None) /\
  (o_open s = false -> o_written s = rendered items /\ o_closes s = 1 /\ o_done s = Some (end_result e)).
Proof.
  intros Hf H.
  assert (Hn : Forall nofail ls) by (eapply Forall_impl; [apply full_nofail|exact Hf]).
  pose proof (OInv_steps items e ls _ _ (OInv_init items e) Hn H) as I.
  assert (C : content items s).
  { eapply content_steps; [apply (OInv_init items e)| |exact Hf|exact H]. exists 0. auto. }
  destruct C as [k [C1 C2]]. split; [eauto|]. split.
  - rewrite (oi_inflight _ _ _ I). destruct (o_open s && o_lock s); lia.
  - split; intros Eo.
    + rewrite (oi_closes _ _ _ I), Eo. split; [reflexivity|]. now apply (oi_opened _ _ _ I).
    + destruct (oi_closed _ _ _ I Eo) as [_ [Ei Ed]]. rewrite (oi_closes _ _ _ I), Eo. split; [|auto].
      rewrite C2. f_equal. rewrite <- (firstn_skipn k items) at 2. rewrite <- C1, Ei. now rewrite app_nil_r.
Qed.
(** Nothing is stuck: an open handler can always bring its iterator forward. *)
Theorem output_not_stuck items e ls s : Forall nofail ls -> osteps (o_init items e) ls = Some s -> o_open s = true ->
  exists ls' s', Forall full ls' /\ osteps s ls' = Some s' /\
    (o_open s' = false \/ List.length (o_items s') < List.length (o_items s)).
Proof.
  intros Hn H Eo. pose proof (OInv_steps items e ls _ _ (OInv_init items e) Hn H) as I.
  assert (Y : forall s1, OInv items e s1 -> o_open s1 = true -> o_inflight s1 = 1 -> exists s2, ostep s1 (OYield WFull) = Some s2 /\
    (o_open s2 = false \/ List.length (o_items s2) < List.length (o_items s1))).
  { intros s1 I1 E1 F1. cbn. rewrite F1. eexists. split; [reflexivity|].
    destruct (o_items s1) as [|[b|] its]; cbn; [left; reflexivity| |right; lia].
    right. unfold o_write. cbn. rewrite E1. cbn. lia. }
  pose proof (oi_inflight _ _ _ I) as Hi. rewrite Eo in Hi. cbn in Hi. destruct (o_lock s) eqn:El.
  - destruct (Y s I Eo Hi) as [s2 [E2 Hs]]. exists [OYield WFull], s2. cbn [osteps]. rewrite E2. split; [repeat constructor|]. split; [reflexivity|exact Hs].
  - assert (W : exists s1, ostep s OWritable = Some s1 /\ o_open s1 = true /\ o_lock s1 = false /\ o_tasks s1 <> 0 /\ o_items s1 = o_items s).
    { cbn. rewrite Eo. eexists. split; [reflexivity|]. cbn. auto. }
    destruct W as [s1 [E1 [A1 [A2 [A3 A4]]]]].
    assert (I1 : OInv items e s1) by (apply (OInv_step _ _ s OWritable); auto; exact Logic.I).
    assert (S : exists s2, ostep s1 OStart = Some s2 /\ o_open s2 = true /\ o_lock s2 = true /\ o_items s2 = o_items s).
    { cbn. destruct (o_tasks s1); [congruence|]. eexists. split; [reflexivity|]. rewrite A2. cbn. auto. }
    destruct S as [s2 [E2 [B1 [B2 B3]]]].
    assert (I2 : OInv items e s2) by (apply (OInv_step _ _ s1 OStart); auto; exact Logic.I).
    pose proof (oi_inflight _ _ _ I2) as Hi2. rewrite B1, B2 in Hi2. cbn in Hi2.
    destruct (Y s2 I2 B1 Hi2) as [s3 [E3 Hs]]. rewrite B3 in Hs.
    exists [OWritable; OStart; OYield WFull], s3. cbn [osteps]. rewrite E1, E2, E3. split; [repeat constructor|]. split; [reflexivity|exact Hs].
Qed.

(** C19 *)
Theorem no_late_write items e ls s : Forall nofail ls -> osteps (o_init items e) ls = Some s ->
  o_late s = 0 /\ o_closes s <= 1.
Proof.
  intros Hn H. pose proof (OInv_steps items e ls _ _ (OInv_init items e) Hn H) as I.
  split; [apply I|]. rewrite (oi_closes _ _ _ I). destruct (o_open s); lia.
Qed.
(** With failing writes too, the descriptor is closed at most once. *)
Lemma closes_step s l s' : o_closes s = (if o_open s then 0 else 1) -> ostep s l = Some s' -> o_closes s' = if o_open s' then 0 else 1.
Proof.
  intros I H. destruct l as [| |w]; cbn in H.
  - destruct (o_open s) eqn:O; [|discriminate]. injection H as <-. cbn. exact I.
  - destruct (o_tasks s); [discriminate|]. injection H as <-. destruct (o_lock s); cbn; exact I.
  - destruct (o_inflight s) as [|k]; [discriminate|]. injection H as <-.
    destruct (o_items s) as [|[b|] its]; cbn.
    + rewrite I. destruct (o_open s); reflexivity.
    + unfold o_write; cbn. destruct (o_open s) eqn:O; [destruct w; cbn; rewrite I, ?O; reflexivity|cbn; rewrite I; reflexivity].
    + exact I.
Qed.
Theorem closed_at_most_once items e ls s : osteps (o_init items e) ls = Some s -> o_closes s = if o_open s then 0 else 1.
Proof.
  assert (X : forall ls s s', o_closes s = (if o_open s then 0 else 1) -> osteps s ls = Some s' -> o_closes s' = if o_open s' then 0 else 1).
  { induction ls0 as [|l ls0 IH]; cbn; intros s0 s' I H; [injection H as <-; exact I|].
    destruct (ostep s0 l) as [s1|] eqn:E; [|discriminate]. eapply IH; [|exact H]. eapply closes_step; eassumption. }
  intros H. eapply X; [|exact H]. reflexivity.
Qed.
Theorem late_write v1 v2 rest e (x : exn) : exists ls s,
  osteps (o_init (Some v1 :: Some v2 :: rest) e) ls = Some s /\ o_late s = 1.
Proof. exists [OWritable; OWritable; OStart; OYield (WFail x); OStart; OYield WFull]. eexists. cbn. split; reflexivity. Qed.
(** Short writes lose the rest of the item, and the function counts as
    successful. *)
Theorem short_write_loses v n : n < List.length (v ++ [nl]) -> exists ls s,
  osteps (o_init [Some v] EStop) ls = Some s /\ o_done s = Some None /\ o_written s <> rendered [Some v].
Proof.
  intros H. exists [OWritable; OStart; OYield (WShort n); OWritable; OStart; OYield WFull]. eexists. cbn.
  split; [reflexivity|]. cbn. split; [reflexivity|]. rewrite app_nil_r. intros E.
  apply (f_equal (@List.length N)) in E. rewrite firstn_length in E. lia.
Qed.

(** ** A function feeding another *)
Lemma osteps_app a : forall b s, osteps s (a ++ b) = match osteps s a with Some s1 => osteps s1 b | None => None end.
Proof. induction a as [|l a IH]; intros b s; cbn; [reflexivity|]. destruct (ostep s l); auto. Qed.
Lemma line_steps_app ae a : forall b s, line_steps ae s (a ++ b) = match line_steps ae s a with Some s1 => line_steps ae s1 b | None => None end.
Proof.
  unfold line_steps. induction a as [|l a IH]; intros b s; cbn; [reflexivity|].
  destruct (rstep _ _ _ _ _ _ _ s l); auto.
Qed.
Section Pair.
  Variable cap pipe_buf : nat.
  Variable items : list (option bytes).
  Definition projected (s : cstate) : Prop := exists lw lr,
    Forall full lw /\ osteps (o_init items EStop) lw = Some (c_w s) /\
    line_steps false line_start lr = Some (c_r s) /\
    r_sent (c_r s) = o_written (c_w s) /\ r_wopen (c_r s) = o_open (c_w s).

  Lemma line_step_sent r l r' : line_step false r l = Some r' -> (forall d, l <> LFeed d) -> l <> LClose ->
    r_sent r' = r_sent r /\ r_wopen r' = r_wopen r.
  Proof.
    intros H N1 N2. destruct l as [d| |n| | |ok]; [destruct (N1 d eq_refl)|congruence| | | |]; cbn in H.
    - destruct (readable _ _ r); [|discriminate]. destruct (line_wants (r_h r)).
      + destruct (read_ok _ r n); [|discriminate]. destruct (line_event _ _). injection H as <-. auto.
      + destruct (line_event _ _). injection H as <-. auto.
    - destruct (r_phase r); try discriminate. injection H as <-. unfold after. destruct (line_next _) as [h [| |]]; auto.
    - destruct (r_phase r); try discriminate. injection H as <-. unfold after. destruct (line_next _) as [h [| |]]; auto.
    - destruct (r_phase r); try discriminate. injection H as <-. auto.
  Qed.
  Lemma written_grows s w s' : ostep s (OYield w) = Some s' -> exists d, o_written s' = o_written s ++ d.
  Proof.
    cbn. destruct (o_inflight s); [discriminate|]. intros X. injection X as <-.
    destruct (o_items s) as [|[b|] its]; cbn.
    - exists []. now rewrite app_nil_r.
    - unfold o_write. cbn. destruct (o_open s); [|exists []; cbn; now rewrite app_nil_r].
      destruct w; cbn; eauto. exists []. now rewrite app_nil_r.
    - exists []. now rewrite app_nil_r.
  Qed.

  Lemma projected_step s l s' : projected s -> cstep cap pipe_buf s l = Some s' -> projected s'.
  Proof.
    intros [lw [lr [Hf [Hw [Hr [Hs Ho]]]]]]. unfold cstep. destruct (c_blocked s); [discriminate|].
    assert (RW : forall w', o_written w' = o_written (c_w s) -> o_open w' = o_open (c_w s) ->
      forall l0, full l0 -> ostep (c_w s) l0 = Some w' -> projected (mkC w' (c_r s) false)).
    { intros w' E1 E2 l0 F E. exists (lw ++ [l0]), lr. split; [apply Forall_app; auto|]. cbn [c_w c_r].
      split; [rewrite osteps_app, Hw; cbn [osteps]; now rewrite E|]. split; [exact Hr|]. split; congruence. }
    assert (RR : forall r', (forall d, l <> CR (LFeed d)) -> l <> CR LClose -> forall l0, l = CR l0 -> line_step false (c_r s) l0 = Some r' ->
      projected (mkC (c_w s) r' false)).
    { intros r' N1 N2 l0 E0 E. exists lw, (lr ++ [l0]). split; [exact Hf|]. cbn [c_w c_r]. split; [exact Hw|].
      destruct (line_step_sent _ _ _ E) as [A B]; [intros d; specialize (N1 d); congruence|congruence|].
      split; [|split; congruence]. rewrite line_steps_app, Hr. cbn. fold (line_step false). now rewrite E. }
    destruct l as [[| |w]|lr0].
    - destruct (writable cap pipe_buf s); [|discriminate]. destruct (ostep (c_w s) OWritable) as [w'|] eqn:E; [|discriminate].
      intros X. injection X as <-. apply (RW w') with (l0 := OWritable); try exact Logic.I; auto; cbn in E;
        destruct (o_open (c_w s)) eqn:Eo; try discriminate; injection E as <-; reflexivity.
    - destruct (ostep (c_w s) OStart) as [w'|] eqn:E; [|discriminate].
      intros X. injection X as <-. apply (RW w') with (l0 := OStart); try exact Logic.I; auto; cbn in E;
        destruct (o_tasks (c_w s)); try discriminate; injection E as <-; destruct (o_lock (c_w s)); reflexivity.
    - destruct w; try discriminate. destruct (ostep (c_w s) (OYield WFull)) as [w'|] eqn:E; [|discriminate].
      destruct (_ <=? cap).
      + intros X. injection X as <-.
        assert (I : OInv items EStop (c_w s)).
        { eapply OInv_steps; [apply OInv_init| |exact Hw]. eapply Forall_impl; [apply full_nofail|exact Hf]. }
        assert (Eo : o_open (c_w s) = true).
        { destruct (o_open (c_w s)) eqn:Eo; [reflexivity|]. pose proof (oi_inflight _ _ _ I) as X. rewrite Eo in X.
          cbn in E. rewrite X in E. discriminate. }
        destruct (written_grows _ _ _ E) as [d Hd].
        unfold deliver. rewrite Hd, skipn_app, skipn_all, Nat.sub_diag. cbn [app skipn].
        assert (Wo : r_wopen (c_r s) = true) by congruence.
        exists (lw ++ [OYield WFull]), (lr ++ LFeed d :: (if o_open w' then [] else [LClose])). cbn [c_w c_r].
        split; [apply Forall_app; split; [exact Hf|repeat constructor]|].
        split; [rewrite osteps_app, Hw; cbn [osteps]; now rewrite E|].
        split; [|split; [cbn; congruence|reflexivity]].
        rewrite line_steps_app, Hr. unfold line_steps. cbn [rsteps rstep]. rewrite Wo.
        destruct (o_open w'); reflexivity.
      + intros X. injection X as <-. exists lw, lr. auto.
    - destruct lr0 as [d| |n| | |ok]; try discriminate;
        (destruct (line_step false (c_r s) _) as [r'|] eqn:E; [|discriminate]); intros X; injection X as <-;
        (eapply RR; [discriminate|discriminate|reflexivity|exact E]).
  Qed.
  Lemma projected_steps ls : forall s s', projected s -> csteps cap pipe_buf s ls = Some s' -> projected s'.
  Proof.
    induction ls as [|l ls IH]; intros s s' P; cbn.
    - intros X. injection X as <-. exact P.
    - destruct (cstep cap pipe_buf s l) as [s1|] eqn:E; [|discriminate]. apply IH. eapply projected_step; eauto.
  Qed.
  Lemma projected_init : projected (c_init items).
  Proof. exists [], []. repeat split; constructor. Qed.
End Pair.

Lemma rendered_joined items : rendered items = joined (values items).
Proof.
  induction items as [|[b|] items IH]; cbn; [reflexivity| |exact IH].
  f_equal. exact IH.
Qed.
Lemma values_app a b : values (a ++ b) = values a ++ values b.
Proof. unfold values. apply flat_map_app. Qed.

(** C17 *)
Theorem function_to_function cap pipe_buf items ls s :
  Forall (fun v => ~ In nl v) (values items) ->
  csteps cap pipe_buf (c_init items) ls = Some s ->
  prefix (items_of (r_out (c_r s))) (values items) /\
  (ended (r_out (c_r s)) -> items_of (r_out (c_r s)) = values items).
Proof.
  intros Hf H. destruct (projected_steps cap pipe_buf items ls _ _ (projected_init items) H) as [lw [lr [Fw [Hw [Hr [Hs Ho]]]]]].
  destruct (items_written items EStop lw (c_w s) Fw Hw) as [[k Hk] [_ [_ Hc]]].
  assert (Hv : values items = values (firstn k items) ++ values (skipn k items)) by now rewrite <- values_app, firstn_skipn.
  assert (HL : is_lines (r_sent (c_r s)) (values (firstn k items))).
  { split; [|left; rewrite Hs, Hk, rendered_joined; reflexivity].
    rewrite Hv in Hf. apply Forall_app in Hf. apply Hf. }
  destruct (lines_delivered false lr (c_r s) _ Hr HL) as [[c Hp] He]. split.
  - exists (c ++ values (skipn k items)). rewrite Hv, Hp. now rewrite <- app_assoc.
  - intros X. pose proof (LInv_steps false lr _ _ LInv_start Hr) as I.
    destruct (l_end _ I X) as [X1 _]. destruct (l_eof _ I X1) as [_ X2]. rewrite Ho in X2.
    destruct (Hc X2) as [Ew _].
    assert (HL2 : is_lines (r_sent (c_r s)) (values items)).
    { split; [exact Hf|]. left. rewrite Hs, Ew, rendered_joined. reflexivity. }
    apply (lines_delivered false lr (c_r s) _ Hr HL2). exact X.
Qed.

(** No deadlock while everything fits in the pipe. *)
Lemma pend_le ae lr r : line_steps ae line_start lr = Some r -> List.length (r_pend r) <= List.length (r_sent r).
Proof.
  intros H. pose proof (LInv_steps ae lr _ _ LInv_start H) as I. destruct (l_data _ I) as [D|[D _]].
  - rewrite <- D, !app_length. lia.
  - destruct (l_eof _ I D) as [-> _]. cbn. lia.
Qed.
Theorem small_output_never_blocks cap pipe_buf items ls s :
  List.length (rendered items) <= cap ->
  csteps cap pipe_buf (c_init items) ls = Some s -> c_blocked s = false.
Proof.
  intros Hc. 
  assert (Step : forall s l s', projected items s -> cstep cap pipe_buf s l = Some s' -> c_blocked s' = false).
  { intros s0 l s' [lw [lr [Fw [Hw [Hr [Hs Ho]]]]]]. unfold cstep. destruct (c_blocked s0); [discriminate|].
    destruct l as [[| |w]|l].
    - destruct (writable _ _ _); [|discriminate]. destruct (ostep _ _); [|discriminate]. intros X. injection X as <-. reflexivity.
    - destruct (ostep _ _); [|discriminate]. intros X. injection X as <-. reflexivity.
    - destruct w; try discriminate. destruct (ostep (c_w s0) (OYield WFull)) as [w'|] eqn:E; [|discriminate].
      assert (Fw' : Forall full (lw ++ [OYield WFull])) by (apply Forall_app; split; [exact Fw|repeat constructor]).
      assert (Hw' : osteps (o_init items EStop) (lw ++ [OYield WFull]) = Some w') by (rewrite osteps_app, Hw; cbn [osteps]; now rewrite E).
      destruct (items_written items EStop _ _ Fw' Hw') as [[k Hk] _].
      assert (L1 : List.length (o_written w') <= cap).
      { rewrite Hk. rewrite <- (firstn_skipn k items), rendered_app, app_length in Hc. lia. }
      pose proof (pend_le _ _ _ Hr) as L2. rewrite Hs in L2.
      destruct (written_grows _ _ _ E) as [d Hd]. rewrite Hd, app_length in L1.
      destruct (Nat.leb_spec (List.length (r_pend (c_r s0)) + (List.length (o_written w') - List.length (o_written (c_w s0)))) cap) as [Z|Z].
      + intros X. injection X as <-. reflexivity.
      + rewrite Hd, app_length in Z. lia.
    - destruct l; try discriminate; (destruct (line_step false (c_r s0) _); [|discriminate]); intros X; injection X as <-; reflexivity. }
  assert (G : forall ls s0, projected items s0 -> c_blocked s0 = false -> csteps cap pipe_buf s0 ls = Some s -> c_blocked s = false).
  { clear ls. induction ls as [|l ls IH]; intros s0 P B; cbn.
    - intros X. injection X as <-. exact B.
    - destruct (cstep cap pipe_buf s0 l) as [s1|] eqn:E; [|discriminate].
      apply IH; [eapply projected_step; eauto|eapply Step; eauto]. }
  apply G; [apply projected_init|reflexivity].
Qed.

(** But with more data, even in small items, the whole shell can block: two
    writability events are honoured although there is only room for one item. *)
Section Deadlock.
  Variable cap pipe_buf : nat.
  Hypothesis Hpb : 1 <= pipe_buf <= cap.
  Variable v : bytes.
  Hypothesis Hv : List.length v + 1 = pipe_buf.

  Definition mk (j t i : nat) (k : bool) (m : nat) : cstate :=
    mkC (mkO (repeat (Some v) m) EStop k true t i None (rendered (repeat (Some v) j)) 0 0)
        (mkR line_init (rendered (repeat (Some v) j)) true PIdle [] (rendered (repeat (Some v) j))) false.
  Lemma rendered_repeat j : List.length (rendered (repeat (Some v) j)) = j * pipe_buf.
  Proof.
    induction j as [|j IH]; [reflexivity|]. change (repeat (Some v) (S j)) with ([Some v] ++ repeat (Some v) j).
    rewrite rendered_app, app_length, IH. cbn. rewrite app_nil_r, app_length. cbn. lia.
  Qed.
  Lemma rendered_snoc j : rendered (repeat (Some v) (S j)) = rendered (repeat (Some v) j) ++ v ++ [nl].
  Proof. change (repeat (Some v) (S j)) with (Some v :: repeat (Some v) j). rewrite repeat_cons, rendered_app. cbn. now rewrite app_nil_r. Qed.
  Lemma mk_writable j t i k m : S j * pipe_buf <= cap -> cstep cap pipe_buf (mk j t i k m) (CW OWritable) = Some (mk j (S t) i k m).
  Proof.
    intros H. assert (W : writable cap pipe_buf (mk j t i k m) = true).
    { unfold writable. cbn [mk c_r r_pend]. rewrite rendered_repeat. apply Nat.leb_le. cbn in H. lia. }
    unfold cstep. cbn [c_blocked mk] in *. rewrite W. reflexivity.
  Qed.
  Lemma mk_start j t i m : cstep cap pipe_buf (mk j (S t) i false m) (CW OStart) = Some (mk j t (S i) true m).
  Proof. reflexivity. Qed.
  Lemma mk_yield j t i k m : S j * pipe_buf <= cap -> cstep cap pipe_buf (mk j t (S i) k (S m)) (CW (OYield WFull)) = Some (mk (S j) t i false m).
  Proof.
    intros H. remember (mk (S j) t i false m) as R eqn:ER. unfold cstep, mk. cbn [c_blocked c_w c_r ostep o_inflight o_items repeat o_open o_end o_lock o_tasks o_done o_written o_closes o_late r_pend].
    unfold o_write. cbn [o_open o_written o_items o_end o_lock o_tasks o_inflight o_done o_closes o_late].
    destruct (Nat.leb_spec (List.length (rendered (repeat (Some v) j)) +
      (List.length (rendered (repeat (Some v) j) ++ v ++ [nl]) - List.length (rendered (repeat (Some v) j)))) cap) as [_|X].
    - unfold deliver. cbn [c_w c_r o_written o_open r_h r_pend r_phase r_out r_sent].
      rewrite skipn_app, skipn_all, Nat.sub_diag. subst R. unfold mk. rewrite rendered_snoc. reflexivity.
    - rewrite <- rendered_snoc, !rendered_repeat in X. cbn in *. lia.
  Qed.
  Lemma mk_block j t i k m : cap < S j * pipe_buf -> exists s, cstep cap pipe_buf (mk j t (S i) k (S m)) (CW (OYield WFull)) = Some s /\
    c_blocked s = true /\ o_open (c_w s) = true.
  Proof.
    intros H. unfold cstep, mk. cbn [c_blocked c_w c_r ostep o_inflight o_items repeat o_open o_end o_lock o_tasks o_done o_written o_closes o_late r_pend].
    unfold o_write. cbn [o_open o_written o_items o_end o_lock o_tasks o_inflight o_done o_closes o_late].
    destruct (Nat.leb_spec (List.length (rendered (repeat (Some v) j)) +
      (List.length (rendered (repeat (Some v) j) ++ v ++ [nl]) - List.length (rendered (repeat (Some v) j)))) cap) as [X|_].
    - rewrite <- rendered_snoc, !rendered_repeat in X. cbn in *. lia.
    - eexists. split; [reflexivity|]. auto.
  Qed.
  Lemma csteps_app a : forall b s, csteps cap pipe_buf s (a ++ b) = match csteps cap pipe_buf s a with Some s1 => csteps cap pipe_buf s1 b | None => None end.
  Proof. induction a as [|l a IH]; intros b s; cbn [csteps app]; [reflexivity|]. destruct (cstep cap pipe_buf s l); auto. Qed.
  Lemma fill : forall j m, j * pipe_buf <= cap -> exists ls, csteps cap pipe_buf (mk 0 0 0 false (j + m)) ls = Some (mk j 0 0 false m).
  Proof.
    induction j as [|j IH]; intros m Hj; [exists []; reflexivity|].
    destruct (IH (S m)) as [ls E]; [cbn in Hj; lia|].
    exists (ls ++ [CW OWritable; CW OStart; CW (OYield WFull)]). rewrite csteps_app.
    replace (S j + m) with (j + S m) by lia. rewrite E. cbn [csteps].
    rewrite mk_writable, mk_start, mk_yield; auto.
  Qed.
  Theorem deadlock : exists n ls s,
    csteps cap pipe_buf (c_init (repeat (Some v) n)) ls = Some s /\
    (forall l, cstep cap pipe_buf s l = None) /\ o_open (c_w s) = true.
  Proof.
    set (q := cap / pipe_buf).
    assert (Hq : q * pipe_buf <= cap) by (unfold q; rewrite Nat.mul_comm; apply Nat.mul_div_le; lia).
    assert (Hq2 : cap < S q * pipe_buf) by (unfold q; rewrite Nat.mul_comm; apply Nat.mul_succ_div_gt; lia).
    assert (Hq1 : 1 <= q) by (unfold q; apply Nat.div_le_lower_bound; lia).
    destruct q as [|j]; [lia|].
    destruct (fill j 2) as [ls E]; [cbn in Hq; lia|].
    destruct (mk_block (S j) 0 0 true 0 Hq2) as [s [Es [Hb Ho]]].
    exists (j + 2), (ls ++ [CW OWritable; CW OWritable; CW OStart; CW (OYield WFull); CW OStart; CW (OYield WFull)]), s.
    change (c_init (repeat (Some v) (j + 2))) with (mk 0 0 0 false (j + 2)).
    split; [|split; [intros l; unfold cstep; now rewrite Hb|exact Ho]].
    rewrite csteps_app, E. cbn [csteps].
    rewrite mk_writable, mk_writable, mk_start, mk_yield, mk_start, Es; auto.
  Qed.
End Deadlock.
