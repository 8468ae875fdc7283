From Coq Require Import Decimal DecimalString DecimalN Ascii.
From Verif Require Import Py WorldModel WorldSpec WorldProofs WorldMore StatusModel StatusSpec.

Definition last_of {A} (l : list A) : option A := fold_left (fun _ x => Some x) l None.
Lemma last_of_snoc {A} (l : list A) x : last_of (List.app l [x]) = Some x.
Proof. unfold last_of. now rewrite fold_left_app. Qed.
Definition LI (w : world) : Prop := forall i, i_last (w_item w i) = last_of (i_seen (w_item w i)).
Lemma LI_frame w w' : frame w w' -> LI w -> LI w'.
Proof. intros F H i. destruct F. destruct (f_item i) as (_ & _ & A & _ & B). rewrite A, B. apply H. Qed.
Lemma LI_set_item w i x : LI w -> i_last x = last_of (i_seen x) -> LI (set_item w i x).
Proof. intros H E j. cbn. unfold upd. destruct (Nat.eqb i j); [exact E|apply H]. Qed.
Lemma LI_proc w i e : LI w -> LI (proc_event w i e).
Proof.
  intros H. unfold proc_event. assert (G : forall d, LI (set_item w i (mkI (i_kind (w_item w i)) (i_pl (w_item w i)) (Some e) d (i_task (w_item w i)) (List.app (i_seen (w_item w i)) [e])))).
  { intros d. apply LI_set_item; [exact H|]. cbn [i_last i_seen]. symmetry. apply last_of_snoc. }
  destruct (N.eqb (ssi_code e) CLD_EXITED); [|apply G]. destruct (i_kind (w_item w i)); [|apply G|apply G]. intros j. apply G.
Qed.
Lemma LI_dispatch w e : LI w -> LI (dispatch w e).
Proof.
  unfold dispatch. generalize (w_reg w). intros r. revert w. induction r as [|kh r IH]; intros w H; [exact H|]. cbn [fold_left]. apply IH.
  unfold dispatch1. destruct (matches e (fst kh)); [|exact H]. destruct (fst kh); [now apply LI_proc|]. eapply LI_frame; [apply frame_stop_event|exact H].
Qed.
Lemma LI_start_item p w s : LI w -> LI (start_item p w s).
Proof. intros H. unfold start_item. destruct s; cbn; intros j; cbn; unfold upd; destruct (Nat.eqb _ j); try reflexivity; apply H. Qed.
Lemma LI_start_items p : forall ss w, LI w -> LI (fold_left (start_item p) ss w).
Proof. induction ss as [|s ss IH]; cbn; intros w H; [exact H|]. apply IH. now apply LI_start_item. Qed.
Lemma LI_step mgr w l w' : LI w -> step mgr w l = Some w' -> LI w'.
Proof.
  intros K. destruct l as [pid e| |pid| |sender|i fl|i|t|ss inter bad|p|p|p]; cbn [step].
  - destruct (w_kern w pid) as [|i pend|] eqn:Ek; try discriminate. destruct (valid_event e) eqn:Ev; [|discriminate]. intros X. injection X as <-. exact K.
  - destruct (w_chld w && negb (w_reaping w)); [|discriminate]. intros X. injection X as <-. exact K.
  - destruct (w_reaping w) eqn:Er; [|discriminate].
    destruct (w_kern w pid) as [|i [e|]|i e] eqn:Ek; try discriminate; intros X; injection X as <-; apply LI_dispatch; exact K.
  - destruct (w_reaping w && nothing_pending w) eqn:E; [|discriminate]. intros X. injection X as <-. exact K.
  - destruct (w_reaping w); [discriminate|]. destruct mgr; intros X; injection X as <-; [now apply LI_dispatch|exact K].
  - destruct (w_reaping w); [discriminate|]. destruct (i_kind (w_item w i)) eqn:Ekd; try discriminate.
    destruct (i_done (w_item w i)) eqn:Ed; [discriminate|]. destruct (Nat.ltb_spec i (w_ni w)); [|discriminate].
    intros X. injection X as <-. apply LI_set_item; [exact K|]. cbn. apply K.
  - destruct (w_reaping w); [discriminate|]. destruct (i <? w_ni w); [|discriminate].
    assert (G : forall x, core x (w_item w i) -> LI (set_item w i x)) by (intros x Hx; eapply LI_frame; [now apply frame_set_item|exact K]).
    destruct (i_task (w_item w i)); destruct (i_kind (w_item w i)) eqn:Ekd; try discriminate;
      try (destruct (i_done (w_item w i)) as [[|]|] eqn:Ed; try discriminate); intros X; injection X as <-;
      try (eapply LI_frame; [apply frame_wait_begin|]); try (eapply LI_frame; [apply frame_hf|]); apply G; repeat split; cbn; congruence.
  - destruct (w_reaping w); [discriminate|]. destruct (t <? w_nw w); [|discriminate].
    destruct (wt_phase (w_wt w t)); try discriminate. intros X. injection X as <-. eapply LI_frame; [apply frame_wait_loop|exact K].
  - destruct (w_reaping w); [discriminate|]. destruct (startable w [] ss) eqn:Es; [|discriminate]. intros X. injection X as <-.
    unfold do_start. eapply LI_frame; [apply frame_set_running|]. eapply LI_frame; [apply frame_hf|].
    intros j. cbn. exact (LI_start_items _ _ _ K j).
  - destruct (w_reaping w); [discriminate|]. destruct (p <? w_np w); [|discriminate]. intros X. injection X as <-.
    eapply LI_frame; [apply frame_wait_begin|exact K].
  - destruct (w_reaping w); [discriminate|]. destruct (p <? w_np w); [|discriminate]. intros X. injection X as <-.
    eapply LI_frame; [apply frame_suspend|exact K].
  - destruct (w_reaping w); [discriminate|]. destruct (p <? w_np w); [|discriminate]. intros X. injection X as <-.
    eapply LI_frame; [apply frame_restart|exact K].
Qed.
Lemma LI_reach mgr w : reachable mgr w -> LI w.
Proof.
  intros [ls H]. assert (G : forall ls w w', LI w -> steps mgr w ls = Some w' -> LI w').
  { clear. induction ls as [|l ls IH]; intros w w' K; cbn; [intros X; injection X as <-; exact K|].
    destruct (step mgr w l) as [w1|] eqn:E; [|discriminate]. apply IH. eapply LI_step; eauto. }
  eapply G; [|exact H]. intros i. reflexivity.
Qed.
(** Whatever happened could happen. *)
Definition HV (w : world) : Prop := forall i, Forall (fun e => valid_event e = true) (w_hist w i).
Lemma HV_frame w w' : frame w w' -> HV w -> HV w'.
Proof. intros F H i. destruct F. rewrite f_hist. apply H. Qed.
Lemma hist_dispatch w e : w_hist (dispatch w e) = w_hist w.
Proof.
  unfold dispatch. generalize (w_reg w). intros r. revert w. induction r as [|kh r IH]; intros w; [reflexivity|]. cbn [fold_left]. rewrite IH.
  unfold dispatch1. destruct (matches e (fst kh)); [|reflexivity]. destruct (fst kh).
  - unfold proc_event. destruct (N.eqb _ _); [destruct (i_kind _)|]; reflexivity.
  - destruct (frame_stop_event w). exact f_hist.
Qed.
Lemma hist_start_items p : forall ss w, w_hist (fold_left (start_item p) ss w) = w_hist w.
Proof. induction ss as [|s ss IH]; cbn; intros w; [reflexivity|]. rewrite IH. destruct s; reflexivity. Qed.
Lemma HV_step mgr w l w' : KI w -> HV w -> step mgr w l = Some w' -> HV w'.
Proof.
  intros KK K. destruct l as [pid e| |pid| |sender|i fl|i|t|ss inter bad|p|p|p]; cbn [step].
  - destruct (w_kern w pid) as [|i pend|] eqn:Ek; try discriminate. destruct (valid_event e) eqn:Ev; [|discriminate]. intros X. injection X as <-. exact K.
  - destruct (w_chld w && negb (w_reaping w)); [|discriminate]. intros X. injection X as <-. exact K.
  - destruct (w_reaping w) eqn:Er; [|discriminate]. pose proof (k_ev _ KK pid) as Ve.
    destruct (w_kern w pid) as [|i [e|]|i e] eqn:Ek; try discriminate; intros X; injection X as <-; intros j; rewrite hist_dispatch; cbn; unfold upd;
      (destruct (Nat.eqb_spec i j) as [<-|]; [|apply K]); apply Forall_app; (split; [apply K|]); constructor; try apply Ve; constructor.
  - destruct (w_reaping w && nothing_pending w) eqn:E; [|discriminate]. intros X. injection X as <-. exact K.
  - destruct (w_reaping w); [discriminate|]. destruct mgr; intros X; injection X as <-; [|exact K]. intros j. rewrite hist_dispatch. apply K.
  - destruct (w_reaping w); [discriminate|]. destruct (i_kind (w_item w i)) eqn:Ekd; try discriminate.
    destruct (i_done (w_item w i)) eqn:Ed; [discriminate|]. destruct (Nat.ltb_spec i (w_ni w)); [|discriminate].
    intros X. injection X as <-. exact K.
  - destruct (w_reaping w); [discriminate|]. destruct (i <? w_ni w); [|discriminate].
    destruct (i_task (w_item w i)); destruct (i_kind (w_item w i)) eqn:Ekd; try discriminate;
      try (destruct (i_done (w_item w i)) as [[|]|] eqn:Ed; try discriminate); intros X; injection X as <-;
      try (eapply HV_frame; [apply frame_wait_begin|]); try (eapply HV_frame; [apply frame_hf|]); exact K.
  - destruct (w_reaping w); [discriminate|]. destruct (t <? w_nw w); [|discriminate].
    destruct (wt_phase (w_wt w t)); try discriminate. intros X. injection X as <-. eapply HV_frame; [apply frame_wait_loop|exact K].
  - destruct (w_reaping w); [discriminate|]. destruct (startable w [] ss) eqn:Es; [|discriminate]. intros X. injection X as <-.
    unfold do_start. eapply HV_frame; [apply frame_set_running|]. eapply HV_frame; [apply frame_hf|].
    intros j. cbn. rewrite hist_start_items. apply K.
  - destruct (w_reaping w); [discriminate|]. destruct (p <? w_np w); [|discriminate]. intros X. injection X as <-.
    eapply HV_frame; [apply frame_wait_begin|exact K].
  - destruct (w_reaping w); [discriminate|]. destruct (p <? w_np w); [|discriminate]. intros X. injection X as <-.
    eapply HV_frame; [apply frame_suspend|exact K].
  - destruct (w_reaping w); [discriminate|]. destruct (p <? w_np w); [|discriminate]. intros X. injection X as <-.
    eapply HV_frame; [apply frame_restart|exact K].
Qed.
Lemma HV_reach mgr w : reachable mgr w -> HV w.
Proof.
  intros [ls H]. assert (G : forall ls w w', KI w -> HV w -> steps mgr w ls = Some w' -> HV w').
  { clear. induction ls as [|l ls IH]; intros w w' K1 K; cbn; [intros X; injection X as <-; exact K|].
    destruct (step mgr w l) as [w1|] eqn:E; [|discriminate]. apply IH; [eapply KI_step; eauto|eapply HV_step; eauto]. }
  eapply G; [apply KI_init| |exact H]. intros i. constructor.
Qed.
(** The last event of a process is the last thing that happened to it. *)
Lemma last_event mgr w i pid : reachable mgr w -> i < w_ni w -> i_kind (w_item w i) = KProc pid -> only_children_signals w i ->
  i_last (w_item w i) = match last_of (w_hist w i) with Some e => Some (sigchld_info pid (status_word e)) | None => None end.
Proof.
  intros R Hi Hk Hc. destruct (events_in_order mgr w i pid R Hi Hk) as [E _]. rewrite (LI_reach _ _ R i).
  assert (F : filter is_chld (i_seen (w_item w i)) = i_seen (w_item w i)).
  { revert Hc. unfold only_children_signals. generalize (i_seen (w_item w i)). induction l as [|x l IH]; intros H; [reflexivity|]. cbn. unfold is_chld at 1.
    rewrite (H x (or_introl eq_refl)). cbn. f_equal. apply IH. intros y Hy. apply H. now right. }
  rewrite <- F, E. clear. destruct (w_hist w i) as [|e h] using rev_ind; [reflexivity|]. rewrite map_app. cbn [map]. rewrite !last_of_snoc. reflexivity.
Qed.

(** Decimal numbers can be read back. *)
Local Open Scope string_scope.
Definition digit (a : ascii) : bool := let n := nat_of_ascii a in Nat.leb 48 n && Nat.leb n 57.
Fixpoint span (s : string) : string * string :=
  match s with String a r => if digit a then let (x, y) := span r in (String a x, y) else ("", s) | EmptyString => ("", "") end.
Definition stops (s : string) : Prop := match s with String a _ => digit a = false | EmptyString => True end.
Lemma span_uint d : forall s, stops s -> span (NilEmpty.string_of_uint d ++ s) = (NilEmpty.string_of_uint d, s).
Proof.
  induction d as [|d IH|d IH|d IH|d IH|d IH|d IH|d IH|d IH|d IH|d IH]; intros s H; cbn [NilEmpty.string_of_uint append].
  1:{ destruct s as [|a s]; [reflexivity|]. cbn in H. cbn. now rewrite H. }
  all: cbn [span]; rewrite (IH s H); reflexivity.
Qed.
Lemma num_inj n m s t : stops s -> stops t -> decimal n ++ s = decimal m ++ t -> n = m /\ s = t.
Proof.
  intros Hs Ht E. pose proof (f_equal span E) as X. unfold decimal in X. rewrite (span_uint _ _ Hs), (span_uint _ _ Ht) in X. injection X as X Y.
  split; [|exact Y]. pose proof (f_equal NilEmpty.uint_of_string X) as Z. rewrite !NilEmpty.usu in Z. injection Z as Z.
  rewrite <- (Unsigned.of_to n), <- (Unsigned.of_to m). now rewrite Z.
Qed.
