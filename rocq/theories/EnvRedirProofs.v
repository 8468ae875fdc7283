(** Lemmas for C114: whose redirects an environment has. *)
From Verif Require Import Py RedirModel RedirSpec RedirProofs Os RunModel RunSpec RunFinal EnvRedirModel EnvRedirSpec.

Definition ustep (l : list nat) (op : envop) : list nat :=
  match op with
  | EDerive e => l ++ [nth e l 0]
  | ENew | EWith _ | EDeriveWith _ _ => l ++ [List.length l]
  | _ => l
  end.
Lemma users_snoc h op : users (h ++ [op]) = ustep (users h) op.
Proof. unfold users. rewrite fold_left_app. reflexivity. Qed.
Lemma after_snoc h op : after (h ++ [op]) = fst (envstep (after h) op).
Proof. unfold after. now rewrite fold_left_app. Qed.
Lemma ustep_len l op : List.length (ustep l op) = (if makes op then S (List.length l) else List.length l).
Proof. destruct op; cbn; rewrite ?app_length; cbn; lia. Qed.
Lemma users_len h : List.length (users h) = List.length (filter makes h).
Proof.
  induction h as [|op h IH] using rev_ind; [reflexivity|]. rewrite users_snoc, ustep_len, filter_app, app_length, IH. cbn. destruct (makes op); cbn; lia.
Qed.
Lemma sensible_snoc h op : forall n, sensible n (h ++ [op]) <->
  sensible n h /\ match names op with Some e => e < n + List.length (filter makes h) | None => True end.
Proof.
  induction h as [|o h IH]; intros n; cbn [List.app sensible filter].
  - cbn. rewrite Nat.add_0_r. tauto.
  - rewrite IH. destruct (makes o); cbn [List.length]; [rewrite Nat.add_succ_r, Nat.add_succ_l|]; tauto.
Qed.
Lemma ustep_nth l op e : e < List.length l -> nth e (ustep l op) 0 = nth e l 0.
Proof. intros He. destruct op; cbn; try reflexivity; now apply app_nth1. Qed.
Lemma user_snoc h op e : e < List.length (users h) -> user (h ++ [op]) e = user h e.
Proof. intros He. unfold user. rewrite users_snoc. now apply ustep_nth. Qed.
Lemma set_exists h : sensible 0 h -> forall e r, In (ESet e r) h -> e < List.length (users h).
Proof.
  induction h as [|op h IH] using rev_ind; [intros _ ? ? []|]. intros S0 e r Hin. apply sensible_snoc in S0 as [S0 Nm]. cbn in Nm. rewrite users_snoc, ustep_len. rewrite <- users_len in Nm.
  apply in_app_iff in Hin as [Hin|[->|[]]]; [specialize (IH S0 e r Hin); destruct (makes op); lia|]. cbn in *. exact Nm.
Qed.

Lemma flat_map_in {A B} (f g : A -> list B) l : (forall a, In a l -> f a = g a) -> flat_map f l = flat_map g l.
Proof. induction l as [|a l IH]; intros E; [reflexivity|]. cbn. rewrite (E a) by now left. f_equal. apply IH. intros b Hb. apply E. now right. Qed.
Definition settings_for (h : list envop) (u : nat) : list redirect :=
  flat_map (fun o => match o with ESet e' r => if Nat.eqb (user h e') u then [r] else [] | _ => [] end) h.
Lemma settings_is h e : settings h e = settings_for h (user h e).
Proof. reflexivity. Qed.
Lemma settings_for_snoc h op u : sensible 0 (h ++ [op]) ->
  settings_for (h ++ [op]) u = settings_for h u ++ match op with ESet e' r => if Nat.eqb (user h e') u then [r] else [] | _ => [] end.
Proof.
  intros S0. unfold settings_for. rewrite flat_map_app. apply sensible_snoc in S0 as [S0 Nm]. cbn in Nm. rewrite <- users_len in Nm. f_equal.
  - apply flat_map_in. intros o Ho. destruct o; try reflexivity. rewrite user_snoc; [reflexivity|]. eapply set_exists; eassumption.
  - cbn. rewrite app_nil_r. destruct op; try reflexivity. rewrite user_snoc; [reflexivity|]. exact Nm.
Qed.
Lemma made_with_snoc h op u : u < List.length (users h) -> made_with (h ++ [op]) u = made_with h u.
Proof. intros Hu. unfold made_with. rewrite filter_app, nth_error_app1; [reflexivity|]. now rewrite <- users_len. Qed.
Lemma store_nth : forall l k rs j, k < List.length l -> nth_error (store l k rs) j = if Nat.eqb j k then Some rs else nth_error l j.
Proof. induction l as [|x l IH]; intros [|k] rs [|j] Hk; cbn in *; try lia; try reflexivity. apply IH. lia. Qed.
Lemma store_len : forall l k rs, List.length (store l k rs) = List.length l.
Proof. induction l as [|x l IH]; intros [|k] rs; cbn; auto. Qed.

Record okh (h : list envop) (s : envs) : Prop := {
  k_len : List.length (v_refs s) = List.length (users h);
  k_ref : forall e k, nth_error (v_refs s) e = Some k -> k < List.length (v_objs s);
  k_user : forall e, e < List.length (users h) -> user h e < List.length (users h) /\ user h (user h e) = user h e;
  k_same : forall a b, a < List.length (users h) -> b < List.length (users h) -> (nth_error (v_refs s) a = nth_error (v_refs s) b <-> user h a = user h b);
  k_obj : forall e, e < List.length (users h) -> object_of s e = Some (fold_left plus (settings_for h (user h e)) (made_with h (user h e))) }.

Lemma okh_idle h op s : sensible 0 (h ++ [op]) -> match op with EOr _ _ | ERor _ _ => True | _ => False end -> okh h s -> okh (h ++ [op]) s.
Proof.
  intros S0 Hop K. assert (Eu : users (h ++ [op]) = users h) by (rewrite users_snoc; destruct op; try contradiction; reflexivity).
  assert (U : forall e, user (h ++ [op]) e = user h e) by (intros e; unfold user; now rewrite Eu).
  constructor; rewrite ?Eu; intros; rewrite ?U; try (now apply K).
  - eapply k_ref; eassumption.
  - rewrite settings_for_snoc by exact S0. rewrite made_with_snoc by now apply K. destruct op; try contradiction; rewrite app_nil_r; now apply K.
Qed.
Lemma okh_own h op rs s : sensible 0 (h ++ [op]) -> match op with ENew => rs = standard | EWith x | EDeriveWith _ x => rs = x | _ => False end -> okh h s -> okh (h ++ [op]) (add_env s rs).
Proof.
  intros S0 Hop K. set (n := List.length (users h)).
  assert (Eu : users (h ++ [op]) = users h ++ [n]) by (rewrite users_snoc; destruct op; try contradiction; reflexivity).
  assert (Ul : List.length (users (h ++ [op])) = S n) by (rewrite Eu, app_length; cbn; lia).
  assert (Un : user (h ++ [op]) n = n) by (unfold user; rewrite Eu, app_nth2 by lia; fold n; now rewrite Nat.sub_diag).
  assert (Uo : forall e, e < n -> user (h ++ [op]) e = user h e) by (intros e He; now apply user_snoc).
  assert (Nr : forall e, e < n -> nth_error (v_refs (add_env s rs)) e = nth_error (v_refs s) e) by (intros e He; cbn; apply nth_error_app1; rewrite (k_len h s K); exact He).
  assert (Nn : nth_error (v_refs (add_env s rs)) n = Some (List.length (v_objs s))) by (cbn; rewrite nth_error_app2 by (rewrite (k_len h s K); fold n; lia); rewrite (k_len h s K); fold n; now rewrite Nat.sub_diag).
  assert (Rl : forall e, e < n -> exists k, nth_error (v_refs s) e = Some k /\ k < List.length (v_objs s)).
  { intros e He. destruct (nth_error (v_refs s) e) as [k|] eqn:E; [exists k; split; [reflexivity|eapply k_ref; eassumption]|]. apply nth_error_None in E. rewrite (k_len h s K) in E. fold n in E. lia. }
  constructor; rewrite ?Ul.
  - cbn. rewrite app_length, (k_len h s K). fold n. cbn. lia.
  - intros e k E. cbn in E |- *. rewrite app_length. cbn. destruct (Nat.lt_ge_cases e (List.length (v_refs s))) as [He|He].
    + rewrite nth_error_app1 in E by exact He. pose proof (k_ref h s K e k E). lia.
    + rewrite nth_error_app2 in E by exact He. destruct (e - List.length (v_refs s)); cbn in E; [injection E as <-; lia|destruct n0; discriminate].
  - intros e He. destruct (Nat.eq_dec e n) as [->|Ne]; [rewrite !Un; split; [lia|reflexivity]|]. rewrite (Uo e) by lia. destruct (k_user h s K e ltac:(fold n; lia)) as [A B]. fold n in A. rewrite (Uo _ A). split; [lia|exact B].
  - intros a b Ha Hb. destruct (Nat.eq_dec a n) as [->|Na], (Nat.eq_dec b n) as [->|Nb].
    + tauto.
    + rewrite Un, (Uo b), Nn, (Nr b) by lia. destruct (Rl b ltac:(lia)) as (k & -> & Hk). destruct (k_user h s K b ltac:(fold n; lia)) as [A _]. fold n in A. split; [intros X; injection X as X; lia|lia].
    + rewrite Un, (Uo a), Nn, (Nr a) by lia. destruct (Rl a ltac:(lia)) as (k & -> & Hk). destruct (k_user h s K a ltac:(fold n; lia)) as [A _]. fold n in A. split; [intros X; injection X as X; lia|lia].
    + rewrite !Uo, !Nr by lia. apply K; fold n; lia.
  - intros e He. rewrite settings_for_snoc by exact S0. replace (match op with ESet e' r => _ | _ => [] end) with (@nil redirect) by (destruct op; try contradiction; reflexivity). rewrite app_nil_r.
    destruct (Nat.eq_dec e n) as [->|Ne].
    + rewrite Un. unfold object_of. rewrite Nn. cbn. rewrite nth_error_app2 by lia. rewrite Nat.sub_diag. cbn.
      assert (Es : settings_for h n = []).
      { unfold settings_for. assert (G : forall o, In o h -> match o with ESet e' r => if Nat.eqb (user h e') n then [r] else [] | _ => [] end = []).
        { intros o Ho. destruct o; try reflexivity. apply sensible_snoc in S0 as [S0 _]. pose proof (set_exists h S0 _ _ Ho) as Lt. destruct (k_user h s K _ Lt) as [A _]. fold n in A. destruct (Nat.eqb_spec (user h e) n); [lia|reflexivity]. }
        rewrite (flat_map_in _ (fun _ => []) h G). clear. induction h; auto. }
      rewrite Es. cbn [fold_left]. f_equal. unfold made_with. rewrite filter_app, nth_error_app2 by (rewrite <- users_len; fold n; lia). rewrite <- users_len. fold n. rewrite Nat.sub_diag. cbn. destruct op; try contradiction; cbn; congruence.
    + rewrite (Uo e) by lia. destruct (k_user h s K e ltac:(fold n; lia)) as [A _]. fold n in A. rewrite made_with_snoc by (fold n; lia).
      pose proof (k_obj h s K e ltac:(fold n; lia)) as Ob. rewrite <- Ob. unfold object_of. rewrite Nr by lia. destruct (Rl e ltac:(lia)) as (k & -> & Hk). cbn. now apply nth_error_app1.
Qed.
Lemma okh_derive h e0 s k : sensible 0 (h ++ [EDerive e0]) -> nth_error (v_refs s) e0 = Some k -> okh h s -> okh (h ++ [EDerive e0]) (mkEnvs (v_objs s) (v_refs s ++ [k])).
Proof.
  intros S0 Ek K. set (n := List.length (users h)). pose proof S0 as S1. apply sensible_snoc in S1 as [_ Nm]. cbn in Nm. rewrite <- users_len in Nm. fold n in Nm.
  assert (Eu : users (h ++ [EDerive e0]) = users h ++ [user h e0]) by (now rewrite users_snoc).
  assert (Ul : List.length (users (h ++ [EDerive e0])) = S n) by (rewrite Eu, app_length; cbn; lia).
  assert (Un : user (h ++ [EDerive e0]) n = user h e0) by (unfold user at 1; rewrite Eu, app_nth2 by lia; fold n; now rewrite Nat.sub_diag).
  assert (Uo : forall e, e < n -> user (h ++ [EDerive e0]) e = user h e) by (intros e He; now apply user_snoc).
  set (s' := mkEnvs (v_objs s) (v_refs s ++ [k])).
  assert (Nr : forall e, e < n -> nth_error (v_refs s') e = nth_error (v_refs s) e) by (intros e He; cbn; apply nth_error_app1; rewrite (k_len h s K); exact He).
  assert (Nn : nth_error (v_refs s') n = nth_error (v_refs s) e0) by (cbn; rewrite nth_error_app2 by (rewrite (k_len h s K); fold n; lia); rewrite (k_len h s K); fold n; rewrite Nat.sub_diag; now rewrite Ek).
  constructor; rewrite ?Ul.
  - cbn. rewrite app_length, (k_len h s K). fold n. cbn. lia.
  - intros e k0 E. cbn in E |- *. destruct (Nat.lt_ge_cases e (List.length (v_refs s))) as [He|He].
    + rewrite nth_error_app1 in E by exact He. eapply k_ref; eassumption.
    + rewrite nth_error_app2 in E by exact He. destruct (e - List.length (v_refs s)) as [|m]; cbn in E; [injection E as <-; eapply k_ref; eassumption|destruct m; discriminate].
  - intros e He. destruct (k_user h s K e0 ltac:(fold n; lia)) as [A0 B0]. fold n in A0. destruct (Nat.eq_dec e n) as [->|Ne]; [rewrite Un, (Uo _ A0); split; [lia|exact B0]|].
    rewrite (Uo e) by lia. destruct (k_user h s K e ltac:(fold n; lia)) as [A B]. fold n in A. rewrite (Uo _ A). split; [lia|exact B].
  - intros a b Ha Hb. destruct (Nat.eq_dec a n) as [->|Na], (Nat.eq_dec b n) as [->|Nb]; rewrite ?Un, ?Nn; rewrite ?(Uo a), ?(Uo b), ?(Nr a), ?(Nr b) by lia; try tauto; apply K; fold n; lia.
  - intros e He. rewrite settings_for_snoc by exact S0. rewrite app_nil_r.
    destruct (Nat.eq_dec e n) as [->|Ne].
    + rewrite Un. destruct (k_user h s K e0 ltac:(fold n; lia)) as [A0 _]. rewrite made_with_snoc by exact A0. rewrite <- (k_obj h s K e0) by (fold n; lia). unfold object_of. now rewrite Nn.
    + rewrite (Uo e) by lia. destruct (k_user h s K e ltac:(fold n; lia)) as [A _]. rewrite made_with_snoc by exact A. rewrite <- (k_obj h s K e) by (fold n; lia). unfold object_of. now rewrite Nr by lia.
Qed.
Lemma okh_set h e0 r s k rs : sensible 0 (h ++ [ESet e0 r]) -> nth_error (v_refs s) e0 = Some k -> object_of s e0 = Some rs -> okh h s ->
  okh (h ++ [ESet e0 r]) (mkEnvs (store (v_objs s) k (plus rs r)) (v_refs s)).
Proof.
  intros S0 Ek Eo K. pose proof S0 as S1. apply sensible_snoc in S1 as [_ Nm]. cbn in Nm. rewrite <- users_len in Nm.
  assert (Eu : users (h ++ [ESet e0 r]) = users h) by (now rewrite users_snoc).
  assert (U : forall e, user (h ++ [ESet e0 r]) e = user h e) by (intros e; unfold user; now rewrite Eu).
  pose proof (k_ref h s K e0 k Ek) as Hk.
  constructor; rewrite ?Eu.
  - apply K.
  - intros e k0 E. cbn. rewrite store_len. eapply k_ref; eassumption.
  - intros e He. rewrite !U. now apply K.
  - intros a b Ha Hb. rewrite !U. now apply K.
  - intros e He. rewrite !U. rewrite settings_for_snoc by exact S0. rewrite made_with_snoc by now apply K.
    pose proof (k_obj h s K e He) as Oe. unfold object_of in *. cbn [v_refs v_objs]. destruct (nth_error (v_refs s) e) as [ke|] eqn:Ee; [|discriminate].
    rewrite store_nth by exact Hk. pose proof (k_same h s K e e0 He Nm) as Sm. rewrite Ee, Ek in Sm. destruct (Nat.eqb_spec ke k) as [->|Ne].
    + assert (Eu0 : user h e = user h e0) by (now apply Sm). rewrite Eu0, Nat.eqb_refl, fold_left_app. cbn [fold_left]. rewrite Eu0 in Oe. rewrite Ek in Eo. rewrite Oe in Eo. injection Eo as ->. reflexivity.
    + destruct (Nat.eqb_spec (user h e0) (user h e)) as [X|X]; [exfalso; apply Ne; symmetry in X; apply Sm in X; congruence|]. now rewrite app_nil_r.
Qed.
Lemma store_same : forall l k rs, nth_error l k = Some rs -> store l k rs = l.
Proof. induction l as [|x l IH]; intros [|k] rs E; cbn in *; try discriminate; [now injection E as <-|]. now rewrite IH. Qed.
Lemma default_standard : default_redirects = Ok standard.
Proof. reflexivity. Qed.
Lemma okh_all h : sensible 0 h -> okh h (after h).
Proof.
  induction h as [|op h IH] using rev_ind; intros S0.
  - constructor; cbn; try (intros; lia). intros [|e] k; discriminate.
  - pose proof S0 as S1. apply sensible_snoc in S1 as [S1 Nm]. cbn in Nm. specialize (IH S1). rewrite after_snoc. rewrite <- users_len in Nm.
    assert (Nk : forall e, e < List.length (users h) -> exists k rs, nth_error (v_refs (after h)) e = Some k /\ object_of (after h) e = Some rs).
    { intros e He. pose proof (k_obj h _ IH e He) as Ob. unfold object_of in *. destruct (nth_error (v_refs (after h)) e) as [k|]; [|discriminate]. eauto. }
    destruct op as [|rs|e|e rs|e r|e x|e x]; cbn [envstep names] in *.
    + rewrite default_standard. cbn [fst]. now apply okh_own.
    + now apply okh_own.
    + destruct (Nk e Nm) as (k & rs & Ek & _). rewrite Ek. cbn [fst]. now apply okh_derive.
    + now apply okh_own.
    + destruct (Nk e Nm) as (k & rs & Ek & Eo). rewrite Ek, Eo. pose proof (okh_set h e r _ k rs S0 Ek Eo IH) as G. unfold plus in G. destruct (register rs r) as [rs'|er]; cbn [fst]; [exact G|].
      unfold object_of in Eo. rewrite Ek in Eo. rewrite (store_same _ _ _ Eo) in G. now destruct (after h).
    + destruct (Nk e Nm) as (k & rs & Ek & Eo). unfold set_default. rewrite Ek, Eo. cbn. now apply okh_idle.
    + destruct (Nk e Nm) as (k & rs & Ek & Eo). unfold set_default. rewrite Ek, Eo. cbn. now apply okh_idle.
Qed.
