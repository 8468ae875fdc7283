From Verif Require Import Py WorldModel WorldSpec WorldProofs WorldWait WorldStep WorldLive WorldHang WorldMore CtrlModel CtrlSpec.

(** ** The shell's steps are steps of its world *)
Lemma sstep_world mgr s l s' : no_inner l -> sstep mgr s l = Some s' -> exists wl, steps mgr (s_w s) wl = Some (s_w s').
Proof.
  intros N H. unfold sstep in H.
  assert (TW : forall x, to_world s (step mgr (s_w s) x) = Some s' -> exists wl, steps mgr (s_w s) wl = Some (s_w s')).
  { intros x E. unfold to_world in E. destruct (step mgr (s_w s) x) as [w'|] eqn:S; [|discriminate]. injection E as <-. exists [x]. cbn [steps]. now rewrite S. }
  destruct l as [pid e| |ss inter bad|p|p|p|l|sender| |[|]|p n]; cbn [no_inner] in N; try contradiction; destruct (s_call s) as [t|]; try discriminate.
  1-2: now apply TW in H.
  1-2: injection H as <-; exists []; reflexivity.
  1-3: now apply TW in H.
  - destruct (step mgr (s_w s) (LWait p)) as [w'|] eqn:S; [|discriminate]. injection H as <-. exists [LWait p]. cbn [steps]. now rewrite S.
  - destruct (of_loop l); [|discriminate]. now apply TW in H.
  - destruct (s_tstp s); [|discriminate]. destruct (step mgr (s_w s) (LTstp sender)) as [w'|] eqn:S; [|discriminate]. injection H as <-. exists [LTstp sender]. cbn [steps]. now rewrite S.
  - destruct (wt_phase (w_wt (s_w s) t)); try discriminate. injection H as <-. exists []. reflexivity.
  - destruct (w_reaping (s_w s)); [discriminate|]. injection H as <-. exists []. reflexivity.
Qed.
Lemma ssteps_world mgr ls : forall s s', Forall no_inner ls -> ssteps mgr s ls = Some s' -> exists wl, steps mgr (s_w s) wl = Some (s_w s').
Proof.
  induction ls as [|l ls IH]; intros s s' N H; cbn in H; [injection H as <-; now exists []|]. inversion N as [|? ? N1 N2]; subst.
  destruct (sstep mgr s l) as [s1|] eqn:E; [|discriminate]. destruct (sstep_world mgr s l s1 N1 E) as [w1 W1]. destruct (IH s1 s' N2 H) as [w2 W2].
  exists (w1 ++ w2). rewrite steps_app, W1. exact W2.
Qed.
Lemma shell_reachable mgr s : shell_reached mgr s -> reachable mgr (s_w s).
Proof. intros (ls & N & H). destruct (ssteps_world mgr ls s_init s N H) as [wl W]. now exists wl. Qed.
Lemma during_no_inner l : during l -> no_inner l.
Proof. destruct l; cbn; tauto. Qed.
Lemma waiting_during l : waiting_label l -> during l.
Proof. destruct l; cbn; tauto. Qed.
Lemma Forall_impl' {A} (P Q : A -> Prop) l : (forall x, P x -> Q x) -> Forall P l -> Forall Q l.
Proof. intros H F. induction F; constructor; auto. Qed.

(** ** Waking *)
Record woken (w w' : world) : Prop := {
  wk_nw : w_nw w' = w_nw w;
  wk_wt : forall t, w_wt w' t = w_wt w t \/ (p_future (w_pl w (wt_pl (w_wt w t))) = Some t /\ w_wt w' t = mkW (wt_pl (w_wt w t)) WReady (wt_owner (w_wt w t)));
  wk_fut : forall p t, p_future (w_pl w' p) = Some t -> p_future (w_pl w p) = Some t;
  wk_kept : forall p t, p_future (w_pl w p) = Some t -> p_future (w_pl w' p) = Some t \/ wt_phase (w_wt w' t) = WReady }.
Lemma woken_same w w' : w_wt w' = w_wt w -> w_nw w' = w_nw w -> (forall p, p_future (w_pl w' p) = p_future (w_pl w p)) -> woken w w'.
Proof. intros A B C. constructor; auto; intros; rewrite ?A, ?C in *; auto. Qed.
Lemma woken_wake_gen w p x t : BI w -> p_future (w_pl w p) = Some t -> p_future x = None ->
  woken w (set_wt (set_pl w p x) t (mkW (wt_pl (w_wt w t)) WReady (wt_owner (w_wt w t)))).
Proof.
  intros B F X. destruct (b_fut _ B p t F) as (L & E & _). constructor; cbn.
  - reflexivity.
  - intros t'. unfold upd. destruct (Nat.eqb_spec t t') as [<-|]; [right; now rewrite E|now left].
  - intros q t' H. unfold upd in H. destruct (Nat.eqb_spec p q) as [<-|]; [congruence|exact H].
  - intros q t' H. unfold upd. destruct (Nat.eqb_spec t t') as [<-|Hn]; [now right|]. left. destruct (Nat.eqb_spec p q) as [<-|]; [congruence|exact H].
Qed.
Lemma woken_wake w p : BI w -> woken w (wake w p).
Proof.
  intros B. unfold wake. destruct (p_future (w_pl w p)) as [t|] eqn:E; [|now apply woken_same]. now apply woken_wake_gen.
Qed.
Lemma woken_trans a b c : woken a b -> woken b c -> woken a c.
Proof.
  intros X Y. constructor.
  - rewrite (wk_nw _ _ Y). apply X.
  - intros t. destruct (wk_wt _ _ X t) as [E|(F & E)], (wk_wt _ _ Y t) as [E2|(F2 & E2)].
    + left. congruence.
    + right. rewrite E in *. split; [now apply (wk_fut _ _ X)|exact E2].
    + right. split; [exact F|]. congruence.
    + right. split; [exact F|]. rewrite E in E2. exact E2.
  - intros p t H. apply (wk_fut _ _ X). now apply (wk_fut _ _ Y).
  - intros p t H. destruct (wk_kept _ _ X p t H) as [K|K]; [now apply (wk_kept _ _ Y)|]. right. destruct (wk_wt _ _ Y t) as [->|(_ & ->)]; auto.
Qed.
Lemma woken_hf w p : BI w -> p < w_np w -> woken w (handle_finish w p).
Proof.
  intros B Hp. unfold handle_finish. destruct (negb (pl_running w p) && negb (p_finished (w_pl w p))) eqn:E; [|now apply woken_wake].
  assert (S : forall l, woken w (set_running (set_pl w p (mkP (p_items (w_pl w p)) (p_future (w_pl w p)) (p_susp (w_pl w p)) true (p_inter (w_pl w p)) (p_bad (w_pl w p)) (S (p_cleaned (w_pl w p))))) l)).
  { intros l. apply woken_same; auto. intros q. cbn. unfold upd. destruct (Nat.eqb_spec p q) as [<-|]; auto. }
  destruct (p_bad (w_pl w p)) eqn:Eb.
  - apply woken_same; auto. intros q. cbn. unfold upd. destruct (Nat.eqb_spec p q) as [<-|]; auto.
  - unfold wake. cbn [w_pl set_running set_pl set_pls]. rewrite upd_same. cbn [p_future]. destruct (p_future (w_pl w p)) as [t|] eqn:F; [|apply S].
    clear E. destruct (b_fut _ B p t F) as (L & E & _). constructor; cbn.
    + reflexivity.
    + intros t'. unfold upd. destruct (Nat.eqb_spec t t') as [<-|]; [right; now rewrite E|now left].
    + intros q t' H. unfold upd in H. destruct (Nat.eqb_spec p q) as [<-|]; [discriminate|exact H].
    + intros q t' H. unfold upd. destruct (Nat.eqb_spec t t') as [<-|Hn]; [now right|]. left. destruct (Nat.eqb_spec p q) as [<-|]; [congruence|exact H].
Qed.
Lemma woken_stop w : BI w -> woken w (stop_event w).
Proof.
  intros B. unfold stop_event. destruct (w_current w) as [p|]; [|now apply woken_same]. destruct (p_future (w_pl w p)) as [t|] eqn:E.
  - apply (woken_wake_gen w p); auto.
  - constructor; cbn; auto; intros q t H; unfold upd in *; destruct (Nat.eqb_spec p q) as [<-|]; cbn in *; auto; congruence.
Qed.
(** Steps that only wake. *)
Definition waking (mgr : manager) (l : label) : Prop := match l with LResume _ | LStart _ _ _ | LWait _ | LSuspend _ | LRestart _ => False | _ => True end.
Lemma woken_kch w w' : kch w w' -> woken w w'.
Proof. intros K. apply woken_same; [apply K|apply K|]. intros p. now rewrite (kc_pl _ _ K). Qed.
Lemma woken_step mgr w l w' : AI w -> no_fg w -> waking mgr l -> step mgr w l = Some w' -> woken w w'.
Proof.
  intros [K B J] NF Wl H. destruct l as [pid ev| |pid| |sender|i fl|i|t'|ss inter bad|p|p|p]; cbn [waking] in Wl; try contradiction; cbn [step] in H.
  - destruct (w_kern w pid); try discriminate. destruct (valid_event ev); [|discriminate]. injection H as <-. now apply woken_same.
  - destruct (_ && _); [|discriminate]. injection H as <-. now apply woken_same.
  - destruct (w_reaping w); [|discriminate].
    destruct (w_kern w pid) as [|i [ev|]|i ev] eqn:Ek; try discriminate; injection H as <-; apply woken_kch; apply kch_reap; auto; now rewrite Ek.
  - destruct (_ && _); [|discriminate]. injection H as <-. now apply woken_same.
  - destruct (w_reaping w); [discriminate|]. destruct mgr; injection H as <-; [|now apply woken_same].
    rewrite dispatch_tstp by (try apply K; reflexivity). cbn [ssi_pid].
    pose proof (woken_stop w B) as C. destruct (rfind (w_reg w) (HPid sender)) as [i|] eqn:Er; [|exact C].
    eapply woken_trans; [exact C|]. apply woken_kch, kch_proc_event.
    destruct (f_item _ _ (frame_stop_event w) i) as [_ [_ [_ [-> _]]]]. apply rfind_In in Er. now apply (k_regitem _ K) in Er.
  - destruct (w_reaping w); [discriminate|]. destruct (i_kind (w_item w i)) eqn:Ekd; try discriminate.
    destruct (i_done (w_item w i)) eqn:Ed; [discriminate|]. destruct (i <? w_ni w); [|discriminate]. injection H as <-. now apply woken_same.
  - destruct (w_reaping w); [discriminate|]. destruct (Nat.ltb_spec i (w_ni w)) as [Hi|]; [|discriminate].
    assert (G : forall x, woken w (set_item w i x)) by (intros x; now apply woken_same).
    destruct (i_task (w_item w i)) eqn:Et; destruct (i_kind (w_item w i)) as [pid| |q] eqn:Ekd; try discriminate; try (now destruct (NF i q Hi));
      try (destruct (i_done (w_item w i)) as [[|]|] eqn:Ed; try discriminate); injection H as <-; try apply G.
    all: unfold handle_finish, wake; cbn [w_pl set_item set_items];
      pose proof (woken_hf w (i_pl (w_item w i)) B (proj1 (b_ipl _ B i Hi))) as Z.
    all: match goal with |- context [pl_running ?a ?b] => assert (PR : pl_running a b = pl_running w b) by (apply (frame_pl_running w a); apply frame_set_item; repeat split; cbn; congruence) end.
    all: rewrite PR; unfold handle_finish, wake in Z;
      destruct (negb (pl_running w (i_pl (w_item w i))) && negb (p_finished (w_pl w (i_pl (w_item w i)))));
      [destruct (p_bad (w_pl w (i_pl (w_item w i)))); [|cbn [w_pl set_running set_pl set_pls set_item set_items] in *; rewrite upd_same in *; cbn [p_future] in *; destruct (p_future (w_pl w (i_pl (w_item w i))))]
      |destruct (p_future (w_pl w (i_pl (w_item w i))))].
    all: try (now apply woken_same).
    all: destruct Z as [Z1 Z2 Z3 Z4]; constructor; cbn in *; auto.
Qed.

(** ** Resuming a wait() that belongs to no fg *)
Lemma wait_loop_eff w t : wt_owner (w_wt w t) = None ->
  let p := wt_pl (w_wt w t) in
  (forall t', t' <> t -> w_wt (wait_loop w t) t' = w_wt w t') /\ wt_pl (w_wt (wait_loop w t) t) = p /\ wt_owner (w_wt (wait_loop w t) t) = None /\
  ((wt_phase (w_wt (wait_loop w t) t) = WWait /\ p_future (w_pl (wait_loop w t) p) = Some t /\ forall q, q <> p -> p_future (w_pl (wait_loop w t) q) = p_future (w_pl w q)) \/
   ((exists r, wt_phase (w_wt (wait_loop w t) t) = WDone r) /\ forall q, p_future (w_pl (wait_loop w t) q) = p_future (w_pl w q))).
Proof.
  intros O. cbv zeta. unfold wait_loop. rewrite O. destruct (negb (p_susp (w_pl w (wt_pl (w_wt w t)))) && pl_running w (wt_pl (w_wt w t))).
  - cbn. rewrite !upd_same. cbn. split; [intros t' N; now rewrite upd_other|]. split; [reflexivity|]. split; [reflexivity|]. left. split; [reflexivity|]. split; [reflexivity|]. intros q N. now rewrite upd_other.
  - destruct (p_susp (w_pl w (wt_pl (w_wt w t)))).
    + unfold pl_suspend. destruct (signals_same SIGSTOP (p_items (w_pl w (wt_pl (w_wt w t)))) (set_susp w (wt_pl (w_wt w t)) true)) as (A & _ & C & _ & _).
      cbn [w_wt w_pl set_wt set_wts set_current]. rewrite A, C. rewrite !upd_same. cbn [wt_pl wt_owner wt_phase].
      split; [intros t' N; now rewrite upd_other|]. split; [reflexivity|]. split; [reflexivity|]. right. split; [now eexists|].
      intros q. cbn. unfold upd. destruct (Nat.eqb_spec (wt_pl (w_wt w t)) q) as [<-|]; reflexivity.
    + destruct (pl_failed w (wt_pl (w_wt w t))); cbn; rewrite !upd_same; cbn; (split; [intros t' N; now rewrite upd_other|]; split; [reflexivity|]; split; [reflexivity|]; right; split; [now eexists|reflexivity]).
Qed.
Lemma no_fg_owner w t : BI w -> no_fg w -> t < w_nw w -> wt_owner (w_wt w t) = None.
Proof. intros B NF L. destruct (wt_owner (w_wt w t)) as [i|] eqn:E; [|reflexivity]. destruct (b_own _ B t i L E) as (Hi & K & _). now apply NF in K. Qed.

(** ** The wait() that owns its pipeline's future *)
Record own (w : world) (t p : nat) : Prop := {
  o_nw : t < w_nw w;
  o_pl : wt_pl (w_wt w t) = p;
  o_wait : wt_phase (w_wt w t) = WWait -> p_future (w_pl w p) = Some t;
  o_fut : forall t0, p_future (w_pl w p) = Some t0 -> t0 = t;
  o_others : forall t0, t0 <> t -> t0 < w_nw w -> wt_pl (w_wt w t0) = p -> wt_phase (w_wt w t0) <> WReady }.
Lemma own_woken w w' t p : own w t p -> woken w w' -> own w' t p.
Proof.
  intros [O1 O2 O3 O4 O5] W. constructor.
  - now rewrite (wk_nw _ _ W).
  - destruct (wk_wt _ _ W t) as [->|(_ & ->)]; [exact O2|exact O2].
  - intros H. destruct (wk_wt _ _ W t) as [E|(_ & E)]; [|rewrite E in H; discriminate]. rewrite E in H. destruct (wk_kept _ _ W p t (O3 H)) as [K|K]; [exact K|]. rewrite E, H in K. discriminate.
  - intros t0 H. apply O4. now apply (wk_fut _ _ W).
  - intros t0 N L P. rewrite (wk_nw _ _ W) in L. destruct (wk_wt _ _ W t0) as [E|(F & E)].
    + rewrite E in *. now apply O5.
    + exfalso. apply N. apply O4. rewrite E in P. cbn in P. now rewrite P in F.
Qed.
Lemma own_resume w t p t' : BI w -> no_fg w -> own w t p -> t' < w_nw w -> wt_phase (w_wt w t') = WReady -> own (wait_loop w t') t p.
Proof.
  intros B NF [O1 O2 O3 O4 O5] L R. pose proof (wait_loop_eff w t' (no_fg_owner w t' B NF L)) as (E1 & E2 & E3 & E4). cbv zeta in *.
  pose proof (wait_loop_nw w t') as Nw.
  destruct (Nat.eq_dec t' t) as [->|Ne].
  - rewrite O2 in *. constructor.
    + now rewrite Nw.
    + exact E2.
    + intros H. destruct E4 as [(_ & F & _)|((r & D) & _)]; [exact F|rewrite D in H; discriminate].
    + intros t0 H. destruct E4 as [(_ & F & _)|(_ & F)]; [congruence|]. rewrite F in H. now apply O4.
    + intros t0 N L0 P. rewrite Nw in L0. rewrite E1 in * by exact N. now apply O5.
  - assert (Np : wt_pl (w_wt w t') <> p) by (intros P; now apply (O5 t' Ne L P)).
    assert (Ff : p_future (w_pl (wait_loop w t') p) = p_future (w_pl w p)) by (destruct E4 as [(_ & _ & F)|(_ & F)]; apply F; auto).
    assert (Wt : w_wt (wait_loop w t') t = w_wt w t) by (apply E1; congruence).
    constructor.
    + now rewrite Nw.
    + now rewrite Wt.
    + rewrite Wt, Ff. exact O3.
    + rewrite Ff. exact O4.
    + intros t0 N L0 P. rewrite Nw in L0. destruct (Nat.eq_dec t0 t') as [->|N0]; [congruence|]. rewrite E1 in * by exact N0. now apply O5.
Qed.
Lemma loop_cases mgr l : of_loop l = true -> waking mgr l \/ exists t, l = LResume t.
Proof. destruct l; cbn; intros H; try discriminate; eauto. Qed.
Lemma own_step mgr w l w' t p : AI w -> no_fg w -> own w t p -> (waking mgr l \/ exists t, l = LResume t) -> step mgr w l = Some w' -> own w' t p.
Proof.
  intros A NF O [Wl|[t' ->] ] S; [now apply (own_woken w w'); [|apply (woken_step mgr w l)]|].
  cbn [step] in S. destruct (w_reaping w); [discriminate|]. destruct (Nat.ltb_spec t' (w_nw w)) as [L|]; [|discriminate].
  destruct (wt_phase (w_wt w t')) eqn:E; try discriminate. injection S as <-. apply own_resume; auto. apply A.
Qed.
Lemma no_fg_back mgr w ls w' : AI w -> steps mgr w ls = Some w' -> no_fg w' -> no_fg w.
Proof. intros A S NF i q Hi K. destruct (steps_mono mgr ls w w' A S) as (M & Hn & _). apply (NF i q); [lia|]. now rewrite (m_kind _ _ M i Hi). Qed.
(** A step taken during a call. *)
Lemma during_step mgr s l s' t : during l -> s_call s = Some t -> sstep mgr s l = Some s' -> s_call s' = Some t /\ s_said s' = s_said s /\
  (s_w s' = s_w s \/ exists x, step mgr (s_w s) x = Some (s_w s') /\ (waking mgr x \/ exists t, x = LResume t) /\ (waiting_label l -> forall z, x <> LTstp z)).
Proof.
  intros D C H. unfold sstep in H. rewrite C in H. destruct l as [pid e| |ss inter bad|p|p|p|l|sender| |a|p n]; cbn [during] in D; try contradiction.
  - unfold to_world in H. destruct (step mgr (s_w s) (LChild pid e)) as [w'|] eqn:S; [|discriminate]. injection H as <-. cbn. split; [exact C|]. split; [reflexivity|]. right. exists (LChild pid e). split; [exact S|]. split; [now left|]. intros _ z. discriminate.
  - injection H as <-. cbn. auto.
  - destruct (of_loop l) eqn:O; [|discriminate]. unfold to_world in H. destruct (step mgr (s_w s) l) as [w'|] eqn:S; [|discriminate]. injection H as <-. cbn. split; [exact C|]. split; [reflexivity|]. right. exists l. split; [exact S|]. split; [now apply loop_cases|]. intros _ z ->. discriminate.
  - destruct (s_tstp s); [|discriminate]. destruct (step mgr (s_w s) (LTstp sender)) as [w'|] eqn:S; [|discriminate]. injection H as <-. cbn. split; [reflexivity|]. split; [reflexivity|]. right. exists (LTstp sender). split; [exact S|]. split; [now left|]. contradiction.
Qed.
Lemma during_steps mgr t p ls : forall s s', AI (s_w s) -> Forall during ls -> s_call s = Some t -> ssteps mgr s ls = Some s' -> no_fg (s_w s') -> own (s_w s) t p ->
  s_call s' = Some t /\ s_said s' = s_said s /\ own (s_w s') t p /\ AI (s_w s').
Proof.
  induction ls as [|l ls IH]; intros s s' A D C H NF O; cbn in H; [injection H as <-; auto|]. inversion D as [|? ? D1 D2]; subst.
  destruct (sstep mgr s l) as [s1|] eqn:E; [|discriminate].
  assert (W1 : exists wl, steps mgr (s_w s) wl = Some (s_w s1)) by (apply (sstep_world mgr s l); [now apply during_no_inner|exact E]).
  assert (W2 : exists wl, steps mgr (s_w s1) wl = Some (s_w s')) by (apply (ssteps_world mgr ls); [now apply (Forall_impl' during); [apply during_no_inner|]|exact H]).
  destruct W1 as [l1 W1], W2 as [l2 W2]. pose proof (AI_steps mgr l1 _ _ A W1) as A1.
  pose proof (no_fg_back mgr _ _ _ A1 W2 NF) as N1. pose proof (no_fg_back mgr _ _ _ A W1 N1) as N0.
  destruct (during_step mgr s l s1 t D1 C E) as (C1 & S1 & X). rewrite <- S1. apply IH; auto.
  destruct X as [->|(x & Sx & Wx & _)]; [exact O|]. now apply (own_step mgr (s_w s) x).
Qed.
Lemma own_begin w p : BI w -> pl_running w p = true -> (forall t, t < w_nw w -> wt_pl (w_wt w t) = p -> wt_phase (w_wt w t) <> WReady) -> own (wait_begin w p None) (w_nw w) p /\ wt_phase (w_wt (wait_begin w p None) (w_nw w)) = WWait.
Proof.
  intros B R N. destruct (wait_begin_running w p R) as (E1 & E2 & E3 & E4).
  assert (Z : w_wt (wait_begin w p None) (w_nw w) = mkW p WWait None).
  { clear - R. unfold wait_begin. set (w1 := set_wts _ _ _). set (w2 := if p_inter (w_pl w1 p) then _ else _).
    assert (F2 : frame w w2 /\ w_wt w2 (w_nw w) = mkW p WReady None).
    { assert (F1 : frame w w1) by (constructor; cbn; auto using incl_refl; intros; apply core_refl || apply pcore_refl).
      unfold w2. destruct (p_inter _); (split; [constructor; try apply F1|cbn; apply upd_same]). }
    destruct F2 as [F2 W2]. destruct (signals_same SIGCONT (p_items (w_pl w2 p)) (set_susp w2 p false)) as [A [_ [C _] ] ]. pose proof (frame_restart w2 p) as F3.
    fold (pl_restart w2 p) in A, C. set (w3 := pl_restart w2 p) in *. assert (R3 : pl_running w3 p = true) by (now rewrite (frame_pl_running _ _ p F3), (frame_pl_running _ _ p F2)).
    assert (W3 : w_wt w3 (w_nw w) = mkW p WReady None) by (rewrite A; exact W2). unfold wait_loop. rewrite W3. cbn [wt_pl wt_owner].
    assert (P3 : p_susp (w_pl w3 p) = false) by (rewrite C; cbn; now rewrite upd_same). rewrite P3, R3. cbn. apply upd_same. }
  split; [|now rewrite Z]. constructor.
  - rewrite E4. lia.
  - now rewrite Z.
  - intros _. exact E2.
  - intros t0 H. congruence.
  - intros t0 Ne L P. rewrite E1 in * by exact Ne. apply N; [lia|exact P].
Qed.

(** ** CTRL-C while nothing of the pipeline has ended *)
Lemma task_wakes mgr w i w' : AI w -> no_fg w -> step mgr w (LTask i) = Some w' -> i < w_ni w /\ i_done (w_item w i) <> None /\
  forall t, w_wt w' t = w_wt w t \/ p_future (w_pl w (i_pl (w_item w i))) = Some t.
Proof.
  intros A NF H. cbn [step] in H. destruct (w_reaping w); [discriminate|]. destruct (Nat.ltb_spec i (w_ni w)) as [Hi|]; [|discriminate]. split; [exact Hi|].
  destruct (i_task (w_item w i)) eqn:Et; destruct (i_kind (w_item w i)) as [pid| |q] eqn:Ekd; try discriminate; try (now destruct (NF i q Hi));
    destruct (i_done (w_item w i)) as [ [|]|] eqn:Ed; try discriminate; injection H as <-; (split; [discriminate|]); intros t; try (now left).
  all: unfold handle_finish; match goal with |- context [negb ?a && negb ?b] => destruct (negb a && negb b) end.
  all: try match goal with |- context [if ?c then _ else _] => destruct c; [now left|] end.
  all: unfold wake; cbn [w_pl set_running set_pl set_pls set_item set_items]; rewrite ?upd_same; cbn [p_future].
  all: destruct (p_future (w_pl w (i_pl (w_item w i)))) as [t0|]; [|now left].
  all: cbn; unfold upd; destruct (Nat.eqb_spec t0 t) as [<-|]; auto.
Qed.
Definition untouched (w : world) (t p : nat) : Prop := t < w_nw w /\ wt_pl (w_wt w t) = p /\ p < w_np w /\
  (wt_phase (w_wt w t) = WWait \/ exists i, In i (p_items (w_pl w p)) /\ i_done (w_item w i) <> None).
Lemma untouched_step mgr w l w' t p : AI w -> no_fg w -> untouched w t p -> (waking mgr l \/ exists t, l = LResume t) -> (forall z, l <> LTstp z) -> step mgr w l = Some w' -> untouched w' t p.
Proof.
  intros A NF (U1 & U2 & U3 & U4) C NZ S. destruct (step_mono mgr w l w' A S) as (M & Hi & Hp & Hn). destruct A as [K B J].
  assert (D : (exists i, In i (p_items (w_pl w p)) /\ i_done (w_item w i) <> None) -> exists i, In i (p_items (w_pl w' p)) /\ i_done (w_item w' i) <> None).
  { intros (i & I & E). exists i. rewrite (m_items _ _ M p U3). split; [exact I|]. destruct (b_items _ B p i I) as [Li _].
    destruct (i_done (w_item w i)) as [b|] eqn:Ed; [|easy]. rewrite (m_done _ _ M i b Li Ed). discriminate. }
  assert (G : w_wt w' t = w_wt w t -> untouched w' t p).
  { intros E. split; [lia|]. rewrite E. split; [exact U2|]. split; [lia|]. destruct U4 as [U4|U4]; auto. }
  destruct C as [C|[t' ->] ].
  - pose proof (woken_step mgr w l w' (Build_AI w K B J) NF C S) as W.
    destruct l as [pid ev| |pid| |sender|i fl|i|t'|ss inter bad|q|q|q]; cbn [waking] in C; try contradiction.
    + cbn [step] in S. destruct (w_kern w pid); try discriminate. destruct (valid_event ev); [|discriminate]. injection S as <-. now apply G.
    + cbn [step] in S. destruct (_ && _); [|discriminate]. injection S as <-. now apply G.
    + cbn [step] in S. destruct (w_reaping w); [|discriminate]. apply G.
      destruct (w_kern w pid) as [|i [ev|]|i ev] eqn:Ek; try discriminate; injection S as <-;
        [rewrite (kc_wt w _ (kch_reap w pid i ev _ K ltac:(now rewrite Ek)))|rewrite (kc_wt w _ (kch_reap w pid i ev _ K ltac:(now rewrite Ek)))]; reflexivity.
    + cbn [step] in S. destruct (_ && _); [|discriminate]. injection S as <-. now apply G.
    + now destruct (NZ sender).
    + cbn [step] in S. destruct (w_reaping w); [discriminate|]. destruct (i_kind (w_item w i)) eqn:Ekd; try discriminate.
      destruct (i_done (w_item w i)) eqn:Ed; [discriminate|]. destruct (i <? w_ni w); [|discriminate]. injection S as <-. now apply G.
    + destruct (task_wakes mgr w i w' (Build_AI w K B J) NF S) as (Li & Dn & X). destruct (X t) as [E|F]; [now apply G|].
      destruct (b_fut _ B _ _ F) as (_ & Ep & _). rewrite U2 in Ep.
      split; [lia|]. split; [destruct (wk_wt _ _ W t) as [->|(_ & ->)]; exact U2|]. split; [lia|]. right. apply D. exists i. split; [|exact Dn].
      rewrite Ep. now apply (b_ipl _ B).
  - cbn [step] in S. destruct (w_reaping w); [discriminate|]. destruct (Nat.ltb_spec t' (w_nw w)) as [L|]; [|discriminate].
    destruct (wt_phase (w_wt w t')) eqn:E; try discriminate. injection S as <-. pose proof (wait_loop_eff w t' (no_fg_owner w t' B NF L)) as (E1 & E2 & E3 & E4). cbv zeta in *.
    destruct (Nat.eq_dec t' t) as [->|Ne]; [|apply G; apply E1; congruence].
    split; [lia|]. split; [now rewrite E2|]. split; [lia|]. right. apply D. destruct U4 as [U4|U4]; [congruence|exact U4].
Qed.
Lemma untouched_steps mgr t p ls : forall s s', AI (s_w s) -> Forall waiting_label ls -> s_call s = Some t -> ssteps mgr s ls = Some s' -> no_fg (s_w s') -> untouched (s_w s) t p ->
  s_call s' = Some t /\ untouched (s_w s') t p /\ AI (s_w s').
Proof.
  induction ls as [|l ls IH]; intros s s' A D C H NF O; cbn in H; [injection H as <-; auto|]. inversion D as [|? ? D1 D2]; subst.
  destruct (sstep mgr s l) as [s1|] eqn:E; [|discriminate].
  assert (W1 : exists wl, steps mgr (s_w s) wl = Some (s_w s1)) by (apply (sstep_world mgr s l); [now apply during_no_inner, waiting_during|exact E]).
  assert (W2 : exists wl, steps mgr (s_w s1) wl = Some (s_w s')).
  { apply (ssteps_world mgr ls); [|exact H]. apply (Forall_impl' waiting_label); [|exact D2]. intros x X. now apply during_no_inner, waiting_during. }
  destruct W1 as [l1 W1], W2 as [l2 W2]. pose proof (AI_steps mgr l1 _ _ A W1) as A1.
  pose proof (no_fg_back mgr _ _ _ A1 W2 NF) as N1. pose proof (no_fg_back mgr _ _ _ A W1 N1) as N0.
  destruct (during_step mgr s l s1 t (waiting_during _ D1) C E) as (C1 & S1 & X). apply (IH s1); auto.
  destruct X as [->|(x & Sx & Wx & Nz)]; [exact O|]. apply (untouched_step mgr (s_w s) x); auto.
Qed.
Lemma run_begins mgr s p s1 : sstep mgr s (SRun p) = Some s1 -> s_call s = None /\ w_reaping (s_w s) = false /\ p < w_np (s_w s) /\
  s1 = mkS (wait_begin (s_w s) p None) (Some (w_nw (s_w s))) (s_tstp s) (s_said s).
Proof.
  unfold sstep. destruct (s_call s); [discriminate|]. cbn [step]. destruct (w_reaping (s_w s)); [discriminate|]. destruct (Nat.ltb_spec p (w_np (s_w s))); [|discriminate].
  intros X. injection X as <-. auto.
Qed.
Lemma reached_step mgr s l s' : no_inner l -> shell_reached mgr s -> sstep mgr s l = Some s' -> shell_reached mgr s'.
Proof.
  intros N (ls & F & H) E. exists (ls ++ [l]). split; [apply Forall_app; auto|]. revert H. generalize s_init as s0. induction ls as [|x ls IH]; intros s0 H; cbn in *.
  - injection H as ->. now rewrite E.
  - destruct (sstep mgr s0 x) as [s2|]; [|discriminate]. inversion F; subst. now apply IH.
Qed.
Lemma reached_steps mgr ls : forall s s', Forall no_inner ls -> shell_reached mgr s -> ssteps mgr s ls = Some s' -> shell_reached mgr s'.
Proof.
  induction ls as [|l ls IH]; intros s s' N R H; cbn in H; [now injection H as <-|]. inversion N; subst. destruct (sstep mgr s l) as [s1|] eqn:E; [|discriminate].
  apply (IH s1); auto. now apply (reached_step mgr s l).
Qed.
Lemma running_waits w p : pl_running w p = true -> wt_phase (w_wt (wait_begin w p None) (w_nw w)) = WWait /\ wt_pl (w_wt (wait_begin w p None) (w_nw w)) = p.
Proof.
  intros R. unfold wait_begin. set (w1 := set_wts _ _ _). set (w2 := if p_inter (w_pl w1 p) then _ else _).
  assert (F2 : frame w w2 /\ w_wt w2 (w_nw w) = mkW p WReady None).
  { assert (F1 : frame w w1) by (constructor; cbn; auto using incl_refl; intros; apply core_refl || apply pcore_refl).
    unfold w2. destruct (p_inter _); (split; [constructor; try apply F1|cbn; apply upd_same]). }
  destruct F2 as [F2 W2]. destruct (signals_same SIGCONT (p_items (w_pl w2 p)) (set_susp w2 p false)) as [A [_ [C _] ] ]. pose proof (frame_restart w2 p) as F3.
  fold (pl_restart w2 p) in A, C. set (w3 := pl_restart w2 p) in *. assert (R3 : pl_running w3 p = true) by (now rewrite (frame_pl_running _ _ p F3), (frame_pl_running _ _ p F2)).
  assert (W3 : w_wt w3 (w_nw w) = mkW p WReady None) by (rewrite A; exact W2). unfold wait_loop. rewrite W3. cbn [wt_pl wt_owner].
  assert (P3 : p_susp (w_pl w3 p) = false) by (rewrite C; cbn; now rewrite upd_same). rewrite P3, R3. cbn. now rewrite upd_same.
Qed.
Lemma wait_pending mgr s p s1 ls s2 : shell_reached mgr s -> pl_running (s_w s) p = true -> sstep mgr s (SRun p) = Some s1 -> Forall waiting_label ls ->
  ssteps mgr s1 ls = Some s2 -> no_fg (s_w s2) -> all_running (s_w s2) p ->
  s_call s2 = Some (w_nw (s_w s)) /\ wt_phase (w_wt (s_w s2) (w_nw (s_w s))) = WWait /\ wt_pl (w_wt (s_w s2) (w_nw (s_w s))) = p /\ w_nw (s_w s) < w_nw (s_w s2).
Proof.
  intros R Run S L H NF AR. pose proof (reached_step mgr s (SRun p) s1 I R S) as R1.
  destruct (run_begins mgr _ _ _ S) as (C & _ & Lp & E1). subst s1. destruct (running_waits (s_w s) p Run) as (P1 & P2). pose proof (frame_wait_begin (s_w s) p None) as Fr.
  pose proof (AI_reach mgr _ (shell_reachable mgr _ R1)) as A1.
  destruct (untouched_steps mgr (w_nw (s_w s)) p ls _ s2 A1 L eq_refl H NF) as (C2 & (U1 & U2 & U3 & U4) & _).
  { split; [cbn; destruct (wait_begin_running (s_w s) p Run) as (_ & _ & _ & ->); lia|]. split; [exact P2|]. split; [cbn; rewrite (f_np _ _ Fr); exact Lp|]. now left. }
  destruct U4 as [U4|(i & Hi & D)]; [auto|]. exfalso. apply D. now apply AR.
Qed.
Lemma keyboard mgr s p s1 ls s2 : shell_reached mgr s -> pl_running (s_w s) p = true -> sstep mgr s (SRun p) = Some s1 -> Forall waiting_label ls ->
  ssteps mgr s1 ls = Some s2 -> no_fg (s_w s2) -> all_running (s_w s2) p ->
  (forall a s3, sstep mgr s2 (SKeyC a) = Some s3 -> s_said s3 = s_said s2 ++ [Keyboard] /\ s_w s3 = s_w s2 /\ waits_for (s_w s3) (w_nw (s_w s)) p) /\
  (w_reaping (s_w s2) = false -> exists s3, sstep mgr s2 (SKeyC InLoop) = Some s3).
Proof.
  intros R Run S L H NF AR. destruct (wait_pending mgr s p s1 ls s2 R Run S L H NF AR) as (C & W & P & Nw). unfold sstep. rewrite C. split.
  - intros [|] s3 E.
    + destruct (w_reaping (s_w s2)); [discriminate|]. injection E as <-. cbn. split; [reflexivity|]. split; [reflexivity|]. split; [exact Nw|]. split; [exact P|]. intros r. rewrite W. discriminate.
    + rewrite W in E. discriminate.
  - intros ->. eauto.
Qed.
Lemma key_in_wait mgr s t s' : s_call s = Some t -> sstep mgr s (SKeyC InWait) = Some s' ->
  s_said s' = s_said s ++ [Interrupted (wt_pl (w_wt (s_w s) t))] /\ s_call s' = None /\ w_current (s_w s') = None.
Proof.
  intros C H. unfold sstep in H. rewrite C in H. destruct (wt_phase (w_wt (s_w s) t)); try discriminate. destruct (w_reaping (s_w s)); [discriminate|]. injection H as <-. cbn. auto.
Qed.
Lemma key_at_start mgr s p n s' : sstep mgr s (SRunKeyC p n) = Some s' -> s_said s' = s_said s ++ [Interrupted p] /\ s_call s' = None /\ w_current (s_w s') = None.
Proof.
  intros H. unfold sstep in H. destruct (s_call s); [discriminate|]. destruct (w_reaping (s_w s)); [discriminate|]. destruct (p <? w_np (s_w s)); [|discriminate]. injection H as <-. cbn. auto.
Qed.

(** ** The interrupted pipeline stays in the foreground *)
Lemma only_woken w w' t : BI w -> woken w w' -> only_wait w t -> only_wait w' t.
Proof.
  intros B W O t0 L N. rewrite (wk_nw _ _ W) in L. destruct (O t0 L N) as [r D]. destruct (wk_wt _ _ W t0) as [->|(F & _)]; [eauto|].
  destruct (b_fut _ B _ _ F) as (_ & _ & X). congruence.
Qed.
Lemma waiting_quiet mgr w x w' t : AI w -> no_fg w -> only_wait w t -> (waking mgr x \/ exists t, x = LResume t) -> (forall z, x <> LTstp z) -> step mgr w x = Some w' ->
  quiet w t x /\ only_wait w' t.
Proof.
  intros A NF O C NZ S. destruct C as [C|[t' ->] ].
  - split; [|apply (only_woken w); [apply A|apply (woken_step mgr w x); auto|exact O]].
    destruct x as [pid ev| |pid| |sender|i fl|i|t'|ss inter bad|q|q|q]; cbn [quiet waking] in *; try contradiction; auto; [now destruct (NZ sender)|].
    intros q K. cbn [step] in S. destruct (w_reaping w); [discriminate|]. destruct (Nat.ltb_spec i (w_ni w)) as [Hi|]; [|discriminate]. now apply (NF i q Hi).
  - cbn [step] in S. destruct (w_reaping w); [discriminate|]. destruct (Nat.ltb_spec t' (w_nw w)) as [L|]; [|discriminate].
    destruct (wt_phase (w_wt w t')) eqn:E; try discriminate. injection S as <-. pose proof (wait_loop_eff w t' (no_fg_owner w t' (a_b _ A) NF L)) as (E1 & _).
    destruct (Nat.eq_dec t' t) as [->|Ne]; [|destruct (O t' L Ne); congruence]. split; [reflexivity|]. intros t0 L0 N0. rewrite wait_loop_nw in L0. rewrite E1 by exact N0. now apply O.
Qed.
Lemma waiting_fore mgr t p ls : forall s s', AI (s_w s) -> Forall waiting_label ls -> s_call s = Some t -> ssteps mgr s ls = Some s' -> no_fg (s_w s') ->
  only_wait (s_w s) t -> fore (s_w s) p t -> (forall r, wt_phase (w_wt (s_w s') t) <> WDone r) -> fore (s_w s') p t /\ only_wait (s_w s') t.
Proof.
  induction ls as [|l ls IH]; intros s s' A D C H NF O F Nd; cbn in H; [injection H as <-; auto|]. inversion D as [|? ? D1 D2]; subst.
  destruct (sstep mgr s l) as [s1|] eqn:E; [|discriminate].
  assert (W1 : exists wl, steps mgr (s_w s) wl = Some (s_w s1)) by (apply (sstep_world mgr s l); [now apply during_no_inner, waiting_during|exact E]).
  assert (W2 : exists wl, steps mgr (s_w s1) wl = Some (s_w s')).
  { apply (ssteps_world mgr ls); [|exact H]. apply (Forall_impl' waiting_label); [|exact D2]. intros x X. now apply during_no_inner, waiting_during. }
  destruct W1 as [l1 W1], W2 as [l2 W2]. pose proof (AI_steps mgr l1 _ _ A W1) as A1.
  pose proof (no_fg_back mgr _ _ _ A1 W2 NF) as N1. pose proof (no_fg_back mgr _ _ _ A W1 N1) as N0.
  destruct (during_step mgr s l s1 t (waiting_during _ D1) C E) as (C1 & S1 & X).
  assert (G : fore (s_w s1) p t /\ only_wait (s_w s1) t).
  { destruct X as [->|(x & Sx & Wx & Nz)]; [auto|]. destruct (waiting_quiet mgr (s_w s) x (s_w s1) t A N0 O Wx (Nz D1) Sx) as [Q O1]. split; [|exact O1].
    destruct (fore_step mgr (s_w s) x (s_w s1) p t A F Q Sx) as [F1|[r R] ]; [exact F1|]. exfalso. destruct F as (_ & Lt & _). destruct (step_mono mgr _ _ _ A Sx) as (_ & _ & _ & Ln).
    apply (Nd r). now rewrite (done_forever mgr l2 (s_w s1) (s_w s') t r A1 ltac:(lia) R W2). }
  destruct G as [F1 O1]. apply (IH s1); auto.
Qed.
Lemma begin_current w q o : p_inter (w_pl w q) = false -> pl_running w q = true -> o = None -> w_current (wait_begin w q o) = w_current w.
Proof.
  intros I R ->. unfold wait_begin. set (w1 := set_wts _ _ _). change (p_inter (w_pl w1 q)) with (p_inter (w_pl w q)). rewrite I.
  assert (F1 : frame w w1) by (constructor; cbn; auto using incl_refl; intros; apply core_refl || apply pcore_refl).
  destruct (signals_same SIGCONT (p_items (w_pl w1 q)) (set_susp w1 q false)) as [A [B [C [D E] ] ] ]. pose proof (frame_restart w1 q) as F3.
  fold (pl_restart w1 q) in A, B, C, D, E. set (w3 := pl_restart w1 q) in *.
  assert (R3 : pl_running w3 q = true) by (now rewrite (frame_pl_running _ _ q F3), (frame_pl_running _ _ q F1)).
  assert (W3 : w_wt w3 (w_nw w) = mkW q WReady None) by (rewrite A; cbn; apply upd_same). unfold wait_loop. rewrite W3. cbn [wt_pl wt_owner].
  assert (P3 : p_susp (w_pl w3 q) = false) by (rewrite C; cbn; now rewrite upd_same). rewrite P3, R3. cbn. rewrite E. reflexivity.
Qed.
Lemma fore_other w p t q : fore w p t -> q <> p -> p_inter (w_pl w q) = false -> pl_running w q = true -> fore (wait_begin w q None) p t.
Proof.
  intros (F1 & F2 & F3 & F4 & F5) N I R. destruct (wait_begin_running w q R) as (E1 & E2 & E3 & E4). assert (t <> w_nw w) by lia.
  split; [now rewrite begin_current|]. split; [lia|]. rewrite E1 by assumption. rewrite E3 by congruence. auto.
Qed.
Lemma tstp_other w w' p t u sender : AI w -> fore w p t -> u <> t -> u < w_nw w -> wt_pl (w_wt w u) <> p -> step Signalfd w (LTstp sender) = Some w' -> w_wt w' u = w_wt w u.
Proof.
  intros A (F1 & F2 & F3 & F4 & F5) N L P S. cbn [step] in S. destruct (w_reaping w); [discriminate|]. injection S as <-.
  assert (G : w_wt (dispatch w (mkSI SIGTSTP sender 0 0)) = w_wt (stop_event w)).
  { rewrite dispatch_tstp by (try apply A; reflexivity). destruct (rfind _ _); [|auto]. unfold proc_event. destruct (N.eqb _ _); [destruct (i_kind _)|]; auto. }
  rewrite G. unfold stop_event. rewrite F1. destruct (p_future (w_pl w p)) as [t'|] eqn:Ef; [|reflexivity]. cbn. unfold upd. destruct (Nat.eqb_spec t' u) as [->|]; [|reflexivity].
  destruct (b_fut _ (a_b _ A) p u Ef) as (_ & X & _). congruence.
Qed.
Lemma stops_other s p s1 ls s2 s3 q s4 sender : shell_reached Signalfd s -> (forall t, t < w_nw (s_w s) -> exists r, wt_phase (w_wt (s_w s) t) = WDone r) ->
  p_inter (w_pl (s_w s) p) = true -> pl_running (s_w s) p = true -> sstep Signalfd s (SRun p) = Some s1 -> Forall waiting_label ls ->
  ssteps Signalfd s1 ls = Some s2 -> no_fg (s_w s2) -> all_running (s_w s2) p -> sstep Signalfd s2 (SKeyC InLoop) = Some s3 ->
  q <> p -> p_inter (w_pl (s_w s3) q) = false -> pl_running (s_w s3) q = true -> sstep Signalfd s3 (SRun q) = Some s4 ->
  exists s5, ssteps Signalfd s4 [SKeyZ; SReadZ sender; SLoop (LResume (w_nw (s_w s)))] = Some s5 /\ stopped_all (s_w s5) p /\
    wt_phase (w_wt (s_w s5) (w_nw (s_w s))) = WDone RSuspended /\ exists u, s_call s5 = Some u /\ wt_pl (w_wt (s_w s5) u) = q /\ wt_phase (w_wt (s_w s5) u) = WWait.
Proof.
  intros R Od Ip Rp S L H NF AR K Nq Iq Rq S4.
  destruct (wait_pending Signalfd s p s1 ls s2 R Rp S L H NF AR) as (C2 & W2 & P2 & Nw2).
  pose proof (reached_step Signalfd s (SRun p) s1 Coq.Init.Logic.I R S) as R1.
  assert (R2 : shell_reached Signalfd s2).
  { apply (reached_steps Signalfd ls s1); auto. apply (Forall_impl' waiting_label); [|exact L]. intros x X. now apply during_no_inner, waiting_during. }
  pose proof (reached_step Signalfd s2 (SKeyC InLoop) s3 Coq.Init.Logic.I R2 K) as R3. pose proof (reached_step Signalfd s3 (SRun q) s4 Coq.Init.Logic.I R3 S4) as R4.
  assert (E3 : s_w s3 = s_w s2) by (unfold sstep in K; rewrite C2 in K; destruct (w_reaping (s_w s2)); [discriminate|]; injection K as <-; reflexivity).
  assert (Fo : fore (s_w s2) p (w_nw (s_w s))).
  { destruct (run_begins Signalfd _ _ _ S) as (C & _ & Lp & E1). subst s1. destruct (wait_begin_running (s_w s) p Rp) as (X1 & X2 & X3 & X4).
    refine (proj1 (waiting_fore Signalfd (w_nw (s_w s)) p ls (mkS (wait_begin (s_w s) p None) (Some (w_nw (s_w s))) (s_tstp s) (s_said s)) s2 _ L eq_refl H NF _ _ _)).
    - apply (AI_reach Signalfd), shell_reachable, R1.
    - intros t0 L0 N0. cbn in *. rewrite X1 by exact N0. apply Od. lia.
    - now apply fore_begin.
    - intros r. rewrite W2. discriminate. }
  rewrite E3 in *. destruct (run_begins Signalfd _ _ _ S4) as (C3 & Rr & Lq & E4). rewrite E3 in *. subst s4. cbn [s_w] in *.
  set (t := w_nw (s_w s)) in *. pose proof (fore_other (s_w s2) p t q Fo Nq Iq Rq) as F4. pose proof (AI_reach Signalfd _ (shell_reachable _ _ R4)) as A4. cbn [s_w] in A4.
  assert (Rr4 : w_reaping (wait_begin (s_w s2) q None) = false) by (rewrite (f_reaping _ _ (frame_wait_begin (s_w s2) q None)); exact Rr).
  destruct (tstp_resume _ p t sender A4 F4 Rr4) as (w5 & w6 & T1 & T2 & T3 & T4).
  destruct (running_waits (s_w s2) q Rq) as (Q1 & Q2). destruct (wait_begin_running (s_w s2) q Rq) as (X1 & X2 & X3 & X4).
  assert (Nt : w_nw (s_w s2) <> t) by lia.
  pose proof (tstp_other _ w5 p t (w_nw (s_w s2)) sender A4 F4 Nt ltac:(lia) ltac:(congruence) T1) as U5. pose proof (AI_step _ _ _ _ A4 T1) as A5.
  assert (U6 : w_wt w6 (w_nw (s_w s2)) = w_wt w5 (w_nw (s_w s2))).
  { pose proof T2 as T2'. cbn [step] in T2'. destruct (w_reaping w5); [discriminate|]. destruct (Nat.ltb_spec t (w_nw w5)) as [L5|]; [|discriminate]. destruct (wt_phase (w_wt w5 t)); try discriminate. injection T2' as <-.
    assert (N5 : no_fg w5).
    { intros i k Li Ki. assert (Fr := frame_wait_begin (s_w s2) q None). destruct (step_mono _ _ _ _ A4 T1) as (M & _ & _ & _).
      assert (Nn : w_ni w5 = w_ni (s_w s2)).
      { rewrite <- (f_ni _ _ Fr). clear - T1 A4 Rr4. cbn [step] in T1. rewrite Rr4 in T1. injection T1 as <-. rewrite dispatch_tstp by (try apply A4; reflexivity).
        pose proof (f_ni _ _ (frame_stop_event (wait_begin (s_w s2) q None))) as Z. destruct (rfind _ _); [|exact Z]. unfold proc_event. destruct (N.eqb _ _); [destruct (i_kind _)|]; exact Z. }
      rewrite Nn in Li. apply (NF i k Li). rewrite <- Ki. rewrite (m_kind _ _ M i) by (rewrite (f_ni _ _ Fr); exact Li). symmetry. apply (f_item _ _ Fr i). }
    destruct (wait_loop_eff w5 t (no_fg_owner w5 t (a_b _ A5) N5 L5)) as (Z & _). now apply Z. }
  eexists. split.
  - cbn [ssteps sstep s_call s_tstp s_w]. rewrite T1. cbn [s_call s_w of_loop to_world]. rewrite T2. reflexivity.
  - cbn [s_w s_call]. split; [exact T4|]. split; [exact T3|]. exists (w_nw (s_w s2)). rewrite U6, U5. auto.
Qed.
(** ** The end of the abandoned wait() *)
Lemma abandoned_ends mgr s t r s1 sender s2 : shell_reached mgr s -> sstep mgr s (SLoop (LResume t)) = Some s1 -> wt_phase (w_wt (s_w s1) t) = WDone r ->
  sstep mgr s1 (SReadZ sender) = Some s2 -> s_call s2 = s_call s /\ w_wt (s_w s2) = w_wt (s_w s1) /\ w_pl (s_w s2) = w_pl (s_w s1) /\ w_kills (s_w s2) = w_kills (s_w s1).
Proof.
  intros R S D Z. pose proof (shell_reachable mgr s1 (reached_step mgr s (SLoop (LResume t)) s1 Coq.Init.Logic.I R S)) as R1. unfold sstep in S. destruct (s_call s) as [u|] eqn:C; [|discriminate]. cbn [of_loop] in S. unfold to_world in S.
  destruct (step mgr (s_w s) (LResume t)) as [w1|] eqn:E; [|discriminate]. injection S as <-. cbn [s_w] in *. pose proof (wait_end_resets mgr (s_w s) t w1 r E D) as Cu.
  unfold sstep in Z. cbn [s_call s_tstp s_w] in Z. rewrite C in Z. destruct (s_tstp s); [|discriminate]. destruct (step mgr w1 (LTstp sender)) as [w2|] eqn:E2; [|discriminate]. injection Z as <-. cbn.
  destruct (tstp_lost mgr w1 w2 sender R1 Cu E2) as (X1 & X2 & X3). auto.
Qed.
(** ** A process killed by the SIGINT of the terminal *)
Lemma killed_lost mgr s i p ls s' : shell_reached mgr s -> In i (p_items (w_pl (s_w s) p)) -> is_proc (s_w s) i -> killed (s_w s) i -> Forall no_inner ls -> ssteps mgr s ls = Some s' ->
  (forall t r, t < w_nw (s_w s') -> wt_pl (w_wt (s_w s') t) = p -> wt_phase (w_wt (s_w s') t) = WDone r -> r = RSuspended) /\ pl_running (s_w s') p = true.
Proof.
  intros R Hi Pr Ki N H. pose proof (shell_reachable mgr s R) as W. destruct (ssteps_world mgr ls s s' N H) as [wl Wl]. split.
  - intros t r Lt P D. apply (killed_never_returns mgr (s_w s) i p wl (s_w s') t r); auto.
  - destruct Pr as [pid Pr]. pose proof (AI_reach mgr _ W) as A. destruct (b_items _ (a_b _ A) _ _ Hi) as [Li Hp].
    assert (Lp : p < w_np (s_w s)) by (pose proof (b_ipl _ (a_b _ A) i Li); lia). destruct (steps_mono mgr wl _ _ A Wl) as (M & _).
    unfold pl_running. apply existsb_exists. exists i. rewrite (m_items _ _ M p Lp). split; [exact Hi|]. now apply (kill_forever mgr (s_w s) i pid wl (s_w s')).
Qed.
(** ** Waiting again *)
Lemma wait_again mgr s p s1 ls s2 : shell_reached mgr s -> pl_running (s_w s) p = true -> none_woken (s_w s) p -> sstep mgr s (SRun p) = Some s1 -> Forall during ls ->
  ssteps mgr s1 ls = Some s2 -> no_fg (s_w s2) -> quiescent mgr (s_w s2) -> p_bad (w_pl (s_w s2) p) = false -> (forall i, In i (p_items (w_pl (s_w s2) p)) -> ended_well (s_w s2) i) ->
  exists r s3, sstep mgr s2 SEnd = Some s3 /\ s_said s3 = s_said s ++ [Returned r p].
Proof.
  intros R Run Nw S D H NF Q Hb He. pose proof (reached_step mgr s (SRun p) s1 Coq.Init.Logic.I R S) as R1. destruct (run_begins mgr _ _ _ S) as (C & _ & Lp & E1). subst s1.
  destruct (own_begin (s_w s) p (a_b _ (AI_reach mgr _ (shell_reachable mgr _ R))) Run Nw) as [O _].
  destruct (during_steps mgr (w_nw (s_w s)) p ls _ s2 (AI_reach mgr _ (shell_reachable mgr _ R1)) D eq_refl H NF O) as (C2 & Sd & O2 & A2). cbn [s_said] in Sd.
  set (t := w_nw (s_w s)) in *. set (w := s_w s2) in *. destruct O2 as [O1 O2 O3 O4 O5]. destruct (quiescent_facts _ _ A2 Q) as (Rr & Ch & Nc & Nr & T). destruct A2 as [K B J].
  assert (Pd : exists r, wt_phase (w_wt w t) = WDone r).
  { destruct (wt_phase (w_wt w t)) as [| |r] eqn:Eph; [|now apply Nr in Eph|eauto]. exfalso. pose proof (O3 eq_refl) as Fu. pose proof (b_wait _ B t O1 Eph) as Ne. rewrite O2 in Ne.
    assert (Pl : plain w p).
    { intros i Hi. destruct (b_items _ B p i Hi) as [Li _]. destruct (i_kind (w_item w i)) as [| |k] eqn:E; auto. now apply (NF i k Li). }
    assert (En : all_ended w p).
    { intros i Hi. destruct (b_items _ B p i Hi) as [Li _]. specialize (T i Li). specialize (He i Hi). specialize (Pl i Hi). unfold ended_well in He. pose proof (b_task _ B i Li) as Tk.
      destruct (i_kind (w_item w i)) as [pid| |k] eqn:Ek; [| |contradiction].
      - specialize (Tk ltac:(discriminate)). destruct He as [c He]. destruct (k_fate _ K i pid Li Ek) as [Ho|(h & e & H1 & H2 & H3 & H4 & H5)].
        + exfalso. specialize (Nc pid). destruct (w_kern w pid) as [|j pend|j e] eqn:Ko; cbn in *; try discriminate. injection Ho as ->. apply (exited_not_alive w i pid c pend K He Ko).
        + destruct He as [h' He]. assert (e = CExit c) as -> by (rewrite He in H1; apply app_inj_tail in H1; now destruct H1). cbn in H5. destruct H5 as [H5 _].
          destruct (i_task (w_item w i)); try contradiction; try congruence. specialize (T eq_refl). congruence.
      - specialize (Tk ltac:(discriminate)). destruct (i_task (w_item w i)); try contradiction; try congruence. specialize (T eq_refl). congruence. }
    destruct (J p Ne Pl Hb En) as [Y _]. congruence. }
  destruct Pd as [r Pd]. exists r. unfold sstep. rewrite C2. fold w. rewrite Pd. eexists. split; [reflexivity|]. cbn. fold t. now rewrite Sd, O2.
Qed.
(** ** CTRL-Z that is read later *)
Lemma suspend_from s t p sender : AI (s_w s) -> s_call s = Some t -> s_tstp s = true -> fore (s_w s) p t -> w_reaping (s_w s) = false ->
  exists s', ssteps Signalfd s [SReadZ sender; SLoop (LResume t); SEnd] = Some s' /\ s_said s' = s_said s ++ [Returned RSuspended p] /\ s_tstp s' = false /\ stopped_all (s_w s') p.
Proof.
  intros A C Z F R. destruct (tstp_resume (s_w s) p t sender A F R) as (w1 & w2 & T1 & T2 & T3 & T4). cbn [ssteps]. unfold sstep at 1. rewrite C, Z, T1.
  cbn [sstep s_call s_w of_loop to_world]. rewrite T2. cbn [to_world sstep s_call s_w s_tstp s_said].
  rewrite T3.
  assert (P : wt_pl (w_wt w2 t) = p).
  { pose proof T2 as T2'. cbn [step] in T2'. destruct (w_reaping w1); [discriminate|]. destruct (t <? w_nw w1); [|discriminate]. destruct (wt_phase (w_wt w1 t)) eqn:E; try discriminate. injection T2' as <-.
    destruct F as (F1 & F2 & F3 & F4 & F5). assert (W1 : wt_pl (w_wt w1 t) = p /\ wt_owner (w_wt w1 t) = None).
    { cbn [step] in T1. rewrite R in T1. injection T1 as <-.
      assert (G : w_wt (dispatch (s_w s) (mkSI SIGTSTP sender 0 0)) = w_wt (stop_event (s_w s))).
      { rewrite dispatch_tstp by (try apply A; reflexivity). destruct (rfind _ _); [|auto]. unfold proc_event. destruct (N.eqb _ _); [destruct (i_kind _)|]; auto. }
      rewrite G. unfold stop_event. rewrite F1. destruct (p_future (w_pl (s_w s) p)) as [t'|]; cbn; [|auto]. unfold upd. destruct (Nat.eqb_spec t' t) as [->|]; cbn; auto. }
    destruct W1 as [W1 W2]. destruct (wait_loop_eff w1 t W2) as (_ & X & _). now rewrite X. }
  rewrite P. eexists. split; [reflexivity|]. cbn. auto.
Qed.
Lemma suspends_next s q sender : shell_reached Signalfd s -> s_call s = None -> s_tstp s = true -> w_reaping (s_w s) = false -> q < w_np (s_w s) ->
  p_inter (w_pl (s_w s) q) = true -> pl_running (s_w s) q = true ->
  exists s', ssteps Signalfd s [SRun q; SReadZ sender; SLoop (LResume (w_nw (s_w s))); SEnd] = Some s' /\ s_said s' = s_said s ++ [Returned RSuspended q] /\ stopped_all (s_w s') q.
Proof.
  intros R C Z Rr L I Rq. set (s1 := mkS (wait_begin (s_w s) q None) (Some (w_nw (s_w s))) (s_tstp s) (s_said s)).
  assert (E : sstep Signalfd s (SRun q) = Some s1).
  { unfold sstep. rewrite C. cbn [step]. rewrite Rr. destruct (Nat.ltb_spec q (w_np (s_w s))); [reflexivity|lia]. }
  pose proof (AI_reach _ _ (shell_reachable _ _ (reached_step Signalfd s (SRun q) s1 Coq.Init.Logic.I R E))) as A1.
  destruct (fore_begin (s_w s) q I Rq) as [F _].
  destruct (suspend_from s1 (w_nw (s_w s)) q sender A1 eq_refl Z F) as (s' & X1 & X2 & _ & X3).
  { cbn. rewrite (f_reaping _ _ (frame_wait_begin (s_w s) q None)). exact Rr. }
  exists s'. split; [|auto]. cbn [ssteps] in *. rewrite E. exact X1.
Qed.
(** A CTRL-Z stays pending until the loop takes it. *)
Lemma pending_kept mgr s l s' : s_tstp s = true -> sstep mgr s l = Some s' -> (forall z, l <> SReadZ z) -> s_tstp s' = true.
Proof.
  intros Z H N. unfold sstep in H. destruct l as [pid e| |ss inter bad|p|p|p|l|sender| |[|]|p n]; try (now destruct (N sender)); destruct (s_call s) as [t|]; try discriminate; unfold to_world in *;
    repeat match type of H with context [match ?x with _ => _ end] => destruct x; try discriminate end; injection H as <-; auto.
Qed.
Lemma suspends_same mgr s p s1 ls s2 sender : mgr = Signalfd -> shell_reached mgr s -> (forall t, t < w_nw (s_w s) -> exists r, wt_phase (w_wt (s_w s) t) = WDone r) ->
  p_inter (w_pl (s_w s) p) = true -> pl_running (s_w s) p = true -> sstep mgr s (SRun p) = Some s1 -> Forall waiting_label ls -> ssteps mgr s1 ls = Some s2 ->
  no_fg (s_w s2) -> w_reaping (s_w s2) = false -> (forall r, wt_phase (w_wt (s_w s2) (w_nw (s_w s))) <> WDone r) ->
  exists s3, ssteps mgr s2 [SKeyZ; SReadZ sender; SLoop (LResume (w_nw (s_w s))); SEnd] = Some s3 /\ s_said s3 = s_said s ++ [Returned RSuspended p] /\ s_tstp s3 = false /\ stopped_all (s_w s3) p.
Proof.
  intros -> R Od Ip Rp S L H NF Rr Nd. pose proof (reached_step Signalfd s (SRun p) s1 Coq.Init.Logic.I R S) as R1. destruct (run_begins Signalfd _ _ _ S) as (C & _ & Lp & E1). subst s1.
  destruct (wait_begin_running (s_w s) p Rp) as (X1 & X2 & X3 & X4). set (t := w_nw (s_w s)) in *.
  set (s1 := mkS (wait_begin (s_w s) p None) (Some t) (s_tstp s) (s_said s)) in *. pose proof (AI_reach Signalfd _ (shell_reachable _ _ R1)) as A1.
  destruct (own_begin (s_w s) p (a_b _ (AI_reach _ _ (shell_reachable _ _ R))) Rp) as [O _].
  { intros t0 L0 _ E. destruct (Od t0 L0). congruence. }
  destruct (during_steps Signalfd t p ls s1 s2 A1 (Forall_impl' _ _ _ waiting_during L) eq_refl H NF O) as (C2 & Sd & _ & A2).
  assert (Fo : fore (s_w s2) p t).
  { refine (proj1 (waiting_fore Signalfd t p ls s1 s2 A1 L eq_refl H NF _ _ Nd)).
    - intros t0 L0 N0. cbn in *. rewrite X1 by exact N0. apply Od. lia.
    - now apply fore_begin. }
  destruct (suspend_from (mkS (s_w s2) (s_call s2) true (s_said s2)) t p sender A2 C2 eq_refl Fo Rr) as (s3 & Y1 & Y2 & Y3 & Y4).
  exists s3. split; [|cbn [s_said] in *; rewrite Sd in Y2; auto]. cbn [ssteps sstep]. exact Y1.
Qed.

(** ** A pipeline that was stopped *)
Lemma stopped_running w p : AI w -> all_stopped w p -> all_running w p.
Proof.
  intros [K B J] St i Hi. destruct (St i Hi) as ((pid & Pk) & h & n & Hh). destruct (b_items _ B p i Hi) as [Li _].
  destruct (k_fate _ K i pid Li Pk) as [Ho|(h' & e & H1 & H2 & _)].
  - destruct (k_kern _ K _ _ Ho) as [Hin _]. now destruct (k_regitem _ K _ _ Hin) as (_ & _ & Hd).
  - rewrite Hh in H1. apply app_inj_tail in H1. destruct H1 as [_ <-]. discriminate.
Qed.
Lemma unsuspended_during mgr l : unsuspended mgr l -> during l.
Proof. destruct l; cbn; tauto. Qed.
Lemma unsuspended_steps mgr t p ls : forall s s', AI (s_w s) -> Forall (unsuspended mgr) ls -> s_call s = Some t -> ssteps mgr s ls = Some s' -> no_fg (s_w s') -> untouched (s_w s) t p ->
  s_call s' = Some t /\ untouched (s_w s') t p /\ AI (s_w s').
Proof.
  induction ls as [|l ls IH]; intros s s' A D C H NF O; cbn in H; [injection H as <-; auto|]. inversion D as [|? ? D1 D2]; subst.
  destruct (sstep mgr s l) as [s1|] eqn:E; [|discriminate].
  assert (W1 : exists wl, steps mgr (s_w s) wl = Some (s_w s1)) by (apply (sstep_world mgr s l); [now apply during_no_inner, (unsuspended_during mgr)|exact E]).
  assert (W2 : exists wl, steps mgr (s_w s1) wl = Some (s_w s')).
  { apply (ssteps_world mgr ls); [|exact H]. apply (Forall_impl' (unsuspended mgr)); [|exact D2]. intros x X. now apply during_no_inner, (unsuspended_during mgr). }
  destruct W1 as [l1 W1], W2 as [l2 W2]. pose proof (AI_steps mgr l1 _ _ A W1) as A1.
  pose proof (no_fg_back mgr _ _ _ A1 W2 NF) as N1. pose proof (no_fg_back mgr _ _ _ A W1 N1) as N0.
  destruct (during_step mgr s l s1 t (unsuspended_during mgr _ D1) C E) as (C1 & S1 & X). apply (IH s1); auto.
  destruct (match l with SReadZ _ => true | _ => false end) eqn:Z.
  - destruct l; try discriminate. cbn [unsuspended] in D1. subst mgr. unfold sstep in E. rewrite C in E. destruct (s_tstp s); [|discriminate]. cbn [step] in E.
    destruct (w_reaping (s_w s)); [discriminate|]. injection E as <-. exact O.
  - destruct X as [->|(x & Sx & Wx & Nz)]; [exact O|]. apply (untouched_step mgr (s_w s) x); auto. apply Nz. destruct l; try discriminate; exact D1.
Qed.
Lemma stopped_waits mgr s p s1 ls s2 : shell_reached mgr s -> pl_running (s_w s) p = true -> sstep mgr s (SRun p) = Some s1 -> Forall (unsuspended mgr) ls ->
  ssteps mgr s1 ls = Some s2 -> no_fg (s_w s2) -> all_stopped (s_w s2) p -> sstep mgr s2 SEnd = None /\ s_said s2 = s_said s.
Proof.
  intros R Run S L H NF St. pose proof (reached_step mgr s (SRun p) s1 Coq.Init.Logic.I R S) as R1.
  destruct (run_begins mgr _ _ _ S) as (C & _ & Lp & E1). subst s1. destruct (running_waits (s_w s) p Run) as (P1 & P2). pose proof (frame_wait_begin (s_w s) p None) as Fr.
  pose proof (AI_reach mgr _ (shell_reachable mgr _ R1)) as A1. set (s1 := mkS (wait_begin (s_w s) p None) (Some (w_nw (s_w s))) (s_tstp s) (s_said s)) in *.
  destruct (unsuspended_steps mgr (w_nw (s_w s)) p ls s1 s2 A1 L eq_refl H NF) as (C2 & (U1 & U2 & U3 & U4) & A2).
  { split; [cbn; destruct (wait_begin_running (s_w s) p Run) as (_ & _ & _ & ->); lia|]. split; [exact P2|]. split; [cbn; rewrite (f_np _ _ Fr); exact Lp|]. now left. }
  split.
  - unfold sstep. rewrite C2. destruct U4 as [->|(i & Hi & D)]; [reflexivity|]. exfalso. apply D. now apply (stopped_running _ p A2 St).
  - revert H L. change (s_said s) with (s_said s1). assert (Cs : s_call s1 <> None) by discriminate. revert Cs. clear. generalize s1 as x. induction ls as [|l ls IH]; intros x Cs H L; cbn in H; [now injection H as <-|]. inversion L as [|? ? D1 D2]; subst.
    destruct (sstep mgr x l) as [s3|] eqn:E; [|discriminate]. destruct (s_call x) as [t|] eqn:C; [|easy].
    destruct (during_step mgr x l s3 t (unsuspended_during mgr _ D1) C E) as (C1 & S1 & _). rewrite <- S1. apply IH; auto. rewrite C1. discriminate.
Qed.
