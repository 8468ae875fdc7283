From Verif Require Import Py PathModel EnvModel RedirModel IterModel Utf8Model FinishModel FinishSpec FinishProofs ErrModel ErrSpec.

Lemma failed_iff e : negb (e_running e) && e_failed e = true <-> failed e.
Proof.
  unfold failed, failed_process, failed_function, failed_fg. destruct e as [cmd it r s|name fd u en ended tb|r f]; cbn.
  - rewrite Bool.andb_true_iff, !Bool.negb_true_iff, N.eqb_neq. split.
    + intros [-> Hs]. left. exists cmd, it, s. auto.
    + intros [(c & i & s' & E & Hs)|[(n & t & fd & u & en & E)|E] ]; [injection E as -> -> -> ->; auto|discriminate..].
  - rewrite Bool.andb_true_iff, Bool.negb_involutive, Bool.andb_true_iff. split.
    + intros (-> & _ & Ht). destruct tb as [t|]; [|discriminate]. right. left. exists name, t, fd, u, en. reflexivity.
    + intros [(c & i & s' & E & Hs)|[(n & t & fd' & u' & en' & E)|E] ]; [discriminate| |discriminate]. injection E as -> -> -> -> -> ->. auto.
  - rewrite Bool.andb_true_iff, Bool.negb_true_iff. split.
    + intros [-> ->]. auto.
    + intros [(c & i & s' & E & Hs)|[(n & t & fd' & u' & en' & E)|E] ]; [discriminate..|]. injection E as -> ->. auto.
Qed.
Lemma failed_processes_are l : failed_among l (failed_processes l).
Proof.
  induction l as [|e l IH]; [constructor|]. unfold failed_processes in *. cbn [filter]. destruct (negb (e_running e) && e_failed e) eqn:E.
  - apply FA_yes; [now apply failed_iff|exact IH].
  - apply FA_no; [|exact IH]. intros H. apply failed_iff in H. congruence.
Qed.
Lemma among_unique l l1 l2 : failed_among l l1 -> failed_among l l2 -> l1 = l2.
Proof.
  intros H. revert l2. induction H as [|e l l' F H IH|e l l' F H IH]; intros l2 H2; inversion H2; subst; try congruence; try contradiction; auto.
  now rewrite (IH _ H5).
Qed.
Lemma among_in l l' e : failed_among l l' -> failed e -> In e l -> In e l'.
Proof. intros H F. induction H; cbn; [intros []|intros [->|I]; auto|intros [->|I]; [contradiction|auto] ]. Qed.
Lemma among_failed l l' e : failed_among l l' -> In e l' -> failed e /\ In e l.
Proof. intros H. induction H; cbn; [intros []|intros [->|I]; [auto|destruct (IHfailed_among I); auto]|intros I; destruct (IHfailed_among I); auto]. Qed.
Lemma fd_text_is fd t : fd_text fd ++ txt " content:" ++ [10%N] ++ t ++ [10%N] = section fd t.
Proof. unfold section, fd_text. destruct fd as [|[|[|fd] ] ]; reflexivity. Qed.
Lemma part_is e t : failed e -> e_repr e = Ok t -> part_of e t.
Proof.
  intros F E. split.
  - intros cmd it (s & -> & _). cbn [e_repr] in E. injection E as <-. apply (f_equal (List.app cmd)), (f_equal (cons 10%N)), (f_equal (@List.concat N)), map_ext. intros c. apply fd_text_is.
  - intros name tb (fd & u & en & ->). cbn [e_repr] in E. injection E as <-.
    exists (txt " (" ++ join_with (txt ", ") (fun_args fd u en true) ++ txt ")"). apply (f_equal (List.app name)). rewrite <- !(app_assoc (txt " (")). apply (f_equal (List.app (txt " ("))). now rewrite <- (app_assoc (join_with _ _)).
Qed.
Lemma reprs_ok l ts : reprs l = Ok ts -> Forall2 (fun e t => e_repr e = Ok t) l ts.
Proof.
  revert ts. induction l as [|e l IH]; cbn; intros ts H; [injection H as <-; constructor|].
  destruct (e_repr e) as [t|x] eqn:E; [|discriminate]. cbn in H. destruct (reprs l) as [ts'|x]; [|discriminate]. injection H as <-.
  constructor; auto.
Qed.
Lemma error_exact k shown l m : error_text k shown l = Ok m ->
  exists fl ts, failed_among l fl /\ Forall2 part_of fl ts /\ m = description k ++ txt ": " ++ shown ++ txt ":" ++ [10%N; 10%N] ++ join_with separator ts.
Proof.
  unfold error_text. intros H. destruct (reprs (failed_processes l)) as [ts|x] eqn:E; [|discriminate]. injection H as <-.
  exists (failed_processes l), ts. split; [apply failed_processes_are|]. split; [|reflexivity].
  assert (G : forall e, In e (failed_processes l) -> failed e) by (intros e I; exact (proj1 (among_failed _ _ _ (failed_processes_are l) I))).
  apply reprs_ok in E. revert G. generalize dependent ts. generalize (failed_processes l). intros fl ts E. induction E as [|e t fl ts Et E IH]; intros G; constructor.
  - apply part_is; [|exact Et]. apply G. now left.
  - apply IH. intros e' I. apply G. now right.
Qed.
Lemma shows_trans a b c : shows a b -> shows b c -> shows a c.
Proof. intros (x & y & ->) (u & v & ->). exists (x ++ u), (v ++ y). now rewrite <- !app_assoc. Qed.
Lemma shows_refl a : shows a a.
Proof. exists [], []. now rewrite app_nil_r. Qed.
Lemma shows_l a b t : shows b t -> shows (a ++ b) t.
Proof. intros (u & v & ->). exists (a ++ u), v. now rewrite <- app_assoc. Qed.
Lemma shows_r a b t : shows a t -> shows (a ++ b) t.
Proof. intros (u & v & ->). exists u, (v ++ b). now rewrite <- !app_assoc. Qed.
Lemma join_shows sep ts t : In t ts -> shows (join_with sep ts) t.
Proof.
  induction ts as [|x ts IH]; [intros []|]. intros [->|I].
  - destruct ts; cbn [join_with]; [apply shows_refl|]. apply shows_r, shows_refl.
  - destruct ts as [|y ts]; [destruct I|]. cbn [join_with] in *. apply shows_l, shows_l, IH, I.
Qed.
Lemma concat_shows (ts : list text) t : In t ts -> shows (List.concat ts) t.
Proof. induction ts as [|x ts IH]; [intros []|]. intros [->|I]; cbn; [apply shows_r, shows_refl|apply shows_l, IH, I]. Qed.
Lemma forall2_in {A B} (P : A -> B -> Prop) l ts a : Forall2 P l ts -> In a l -> exists b, In b ts /\ P a b.
Proof. intros H. induction H as [|x y l ts Hx H IH]; [intros []|]. intros [->|I]; [exists y; cbn; auto|]. destruct (IH I) as (b & Hb & Pb). exists b. cbn. auto. Qed.
Lemma part_shown k shown l m e : error_text k shown l = Ok m -> In e l -> failed e -> exists t, part_of e t /\ shows m t.
Proof.
  intros H I F. destruct (error_exact _ _ _ _ H) as (fl & ts & A & P & ->). destruct (forall2_in _ _ _ _ P (among_in _ _ _ A F I)) as (t & It & Pt).
  exists t. split; [exact Pt|]. do 5 apply shows_l. now apply join_shows.
Qed.
Lemma process_shown k shown l m e cmd it fd t : error_text k shown l = Ok m -> In e l -> failed_process e cmd it -> dget (it_content it) fd = Some t ->
  shows m cmd /\ shows m (section fd t).
Proof.
  intros H I F D. destruct (part_shown k shown l m e H I (or_introl (ex_intro _ cmd (ex_intro _ it F)))) as (p & [P _] & S). rewrite (P cmd it F) in S.
  split; [eapply shows_trans; [exact S|]; apply shows_r, shows_refl|].
  eapply shows_trans; [exact S|]. apply shows_l, shows_l, concat_shows. apply in_map_iff. exists (fd, t). split; [reflexivity|now apply dget_In].
Qed.
Lemma function_shown k shown l m e name tb : error_text k shown l = Ok m -> In e l -> failed_function e name tb -> shows m name /\ shows m tb.
Proof.
  intros H I F. destruct (part_shown k shown l m e H I (or_intror (or_introl (ex_intro _ name (ex_intro _ tb F))))) as (p & [_ P] & S). destruct (P name tb F) as (a & Ea). rewrite Ea in S.
  split; [eapply shows_trans; [exact S|]; apply shows_r, shows_refl|]. eapply shows_trans; [exact S|]. do 3 apply shows_l. rewrite <- (app_nil_r tb) at 1. apply shows_r, shows_refl.
Qed.
Lemma reprs_err l : (exists e, In e l /\ exists r f, e = EFg r f) -> reprs l = Err TypeError.
Proof.
  induction l as [|e l IH]; intros (x & I & r & f & E); [destruct I|]. subst x. cbn [reprs]. destruct I as [->|I]; [reflexivity|].
  rewrite IH by (exists (EFg r f); eauto). destruct e; reflexivity.
Qed.
Lemma reprs_fine l : (forall e r f, In e l -> e <> EFg r f) -> exists ts, reprs l = Ok ts.
Proof.
  induction l as [|e l IH]; intros H; [exists []; reflexivity|]. destruct IH as (ts & E); [intros x r f I; apply H; now right|].
  cbn [reprs]. rewrite E. destruct e as [| |r f]; [eexists; reflexivity..|]. destruct (H (EFg r f) r f (or_introl eq_refl) eq_refl).
Qed.
Lemma fg_raises k shown l e : In e l -> failed_fg e -> error_text k shown l = Err TypeError.
Proof.
  intros I F. assert (I' := among_in _ _ _ (failed_processes_are l) (or_intror (or_intror F)) I). unfold failed_fg in F. subst e.
  unfold error_text. rewrite reprs_err by (exists (EFg false true); eauto). reflexivity.
Qed.
Lemma no_fg_fine k shown l : (forall e, In e l -> ~ failed_fg e) -> exists m, error_text k shown l = Ok m.
Proof.
  intros H. unfold error_text. destruct (reprs_fine (failed_processes l)) as (ts & E).
  - intros e r f I ->. unfold failed_processes in I. apply filter_In in I as [I X]. cbn in X. apply Bool.andb_true_iff in X as [X ->]. apply Bool.negb_true_iff in X as ->. exact (H _ I eq_refl).
  - rewrite E. eexists. reflexivity.
Qed.

(** *** When the text is made: wait() and the clean-up (WorldModel.v) *)
From Verif Require Import WorldModel WorldSpec WorldProofs WorldWait WorldStep WorldMore.
Definition items_same (w w' : world) : Prop :=
  w_np w' = w_np w /\ (forall i, w_item w' i = w_item w i) /\ (forall p, p_items (w_pl w' p) = p_items (w_pl w p)).
Lemma existsb_ext_in {A} (f g : A -> bool) l : (forall a, f a = g a) -> existsb f l = existsb g l.
Proof. intros H. induction l as [|a l IH]; cbn; [reflexivity|]. now rewrite H, IH. Qed.
Lemma running_same w w' : items_same w w' -> forall f i, running_f f w' i = running_f f w i.
Proof.
  intros (_ & I & P). induction f as [|f IH]; intros i; cbn [running_f]; rewrite I; destruct (i_kind (w_item w i)); try reflexivity.
  rewrite P. now apply existsb_ext_in.
Qed.
Lemma failed_same w w' : items_same w w' -> forall f i, failed_f f w' i = failed_f f w i.
Proof.
  intros S. destruct S as (N0 & I & P). induction f as [|f IH]; intros i; cbn [failed_f]; rewrite I; destruct (i_kind (w_item w i)); try reflexivity.
  rewrite P. apply existsb_ext_in. intros a. rewrite IH, (running_same w w' (conj N0 (conj I P))). reflexivity.
Qed.
Lemma pl_running_same w w' p : items_same w w' -> pl_running w' p = pl_running w p.
Proof. intros S. pose proof S as (N0 & I & P). unfold pl_running. rewrite P. apply existsb_ext_in. intros i. unfold item_running. rewrite N0. now apply running_same. Qed.
Lemma pl_failed_same w w' p : items_same w w' -> pl_failed w' p = pl_failed w p.
Proof.
  intros S. pose proof S as (N0 & I & P). unfold pl_failed. rewrite P. apply existsb_ext_in. intros i. unfold item_running. rewrite N0.
  now rewrite (running_same w w' S), (failed_same w w' S).
Qed.
Lemma signals_kills s l : forall w, exists ks, fold_left (signal_item s) l w = set_kills w ks.
Proof.
  induction l as [|i l IH]; intros w; cbn.
  - exists (w_kills w). destruct w; reflexivity.
  - destruct (IH (signal_item s w i)) as (ks & ->). unfold signal_item. destruct (i_kind (w_item w i)); exists ks; reflexivity.
Qed.
Lemma early_wait mgr w p w' : pl_running w p = false -> pl_failed w p = true -> p_cleaned (w_pl w p) = 0 -> step mgr w (LWait p) = Some w' ->
  wt_phase (w_wt w' (w_nw w)) = WDone RFailed /\ p_cleaned (w_pl w' p) = 0.
Proof.
  intros R F C H. cbv beta iota delta [step] in H. destruct (w_reaping w); [discriminate|]. destruct (p <? w_np w); [|discriminate]. assert (X : w' = wait_begin w p None) by congruence. clear H. subst w'.
  unfold wait_begin. set (w1 := set_wts w _ _). set (w2 := if p_inter (w_pl w1 p) then set_current w1 (Some p) else w1).
  unfold pl_restart. destruct (signals_kills SIGCONT (p_items (w_pl w2 p)) (set_susp w2 p false)) as (ks & ->).
  set (w3 := set_kills _ ks).
  assert (S : items_same w w3).
  { unfold w3, w2. split; [destruct (p_inter _); reflexivity|]. split; [intros i; destruct (p_inter _); reflexivity|].
    intros q. unfold set_susp. destruct (p_inter (w_pl w1 p)); cbn; unfold upd; destruct (Nat.eqb_spec p q) as [->|Ne]; reflexivity. }
  assert (Wt : w_wt w3 (w_nw w) = mkW p WReady None).
  { unfold w3, w2, w1. destruct (p_inter _); cbn; unfold upd; now rewrite Nat.eqb_refl. }
  assert (Su : p_susp (w_pl w3 p) = false /\ p_cleaned (w_pl w3 p) = 0).
  { unfold w3, w2, w1. destruct (p_inter _); cbn; unfold upd; rewrite Nat.eqb_refl; cbn; auto. }
  unfold wait_loop. change (w_nw w1) with (S (w_nw w)). rewrite Wt. cbn [wt_pl wt_owner]. destruct Su as [Su Cl].
  rewrite Su, (pl_running_same w w3 p S), R, (pl_failed_same w w3 p S), F. cbn. unfold upd. rewrite Nat.eqb_refl. auto.
Qed.
Lemma cleaned_at_rest mgr w p : reachable mgr w -> quiescent mgr w -> p < w_np w -> plain w p -> p_bad (w_pl w p) = false ->
  p_items (w_pl w p) <> [] -> (forall i, In i (p_items (w_pl w p)) -> ended_well w i) -> p_cleaned (w_pl w p) = 1.
Proof.
  intros R Q Hp Pl Hb Hne He. pose proof (unlisted_when_ended mgr w p R Q Hp Pl Hb Hne He) as U. destruct (AI_reach _ _ R) as [K B J].
  rewrite (b_clean _ B). destruct (p_finished (w_pl w p)) eqn:E; [reflexivity|]. exfalso. apply U. now apply (b_run _ B p Hp Hne Pl Hb).
Qed.
