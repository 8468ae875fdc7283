(** Invariants of the kernel, registry and items part. *)
From Verif Require Import Py WorldModel WorldSpec.

(** ** Status words *)
Lemma land_mod k s : N.land s (N.ones k) = (s mod 2 ^ k)%N.
Proof. apply N.land_ones. Qed.
Lemma land128 s : N.land s 128 = (N.land (s mod 256) 128)%N.
Proof.
  change (s mod 256)%N with (s mod 2 ^ 8)%N. rewrite <- N.land_ones, <- N.land_assoc. reflexivity.
Qed.
Lemma shr8 s : N.shiftr s 8 = (s / 256)%N.
Proof. rewrite N.shiftr_div_pow2. reflexivity. Qed.
Lemma termsig s : WTERMSIG s = (s mod 128)%N.
Proof. unfold WTERMSIG. change 127%N with (N.ones 7). rewrite N.land_ones. reflexivity. Qed.
Lemma exitstatus s : WEXITSTATUS s = ((s / 256) mod 256)%N.
Proof. unfold WEXITSTATUS. rewrite shr8. change 255%N with (N.ones 8). rewrite N.land_ones. reflexivity. Qed.
Lemma land255 s : N.land s 255 = (s mod 256)%N.
Proof. change 255%N with (N.ones 8). rewrite N.land_ones. reflexivity. Qed.

Theorem classify_ok e : valid_event e = true -> e <> CCont ->
  classify (status_word e) = (right_code e, right_status e).
Proof.
  intros V NC. unfold classify, WIFEXITED, WCOREDUMP, WIFCONTINUED, WIFSTOPPED, WIFSIGNALED, WSTOPSIG.
  rewrite land255, land128, exitstatus, termsig.
  destruct e as [c|s core|s|]; cbn [valid_event status_word right_code right_status] in *.
  - apply N.ltb_lt in V. replace ((c * 256) mod 128)%N with 0%N.
    + cbn [N.eqb]. rewrite N.div_mul by discriminate. now rewrite N.mod_small.
    + replace (c * 256)%N with ((2 * c) * 128)%N by lia. now rewrite N.mod_mul.
  - apply andb_true_iff in V. destruct V as [V1 V2]. apply N.leb_le in V1, V2.
    destruct core.
    + assert (E1 : ((s + 128) mod 128 = s)%N).
      { replace (s + 128)%N with (s + 1 * 128)%N by lia. rewrite N.mod_add by discriminate. apply N.mod_small. lia. }
      rewrite E1. destruct (N.eqb_spec s 0); [lia|].
      rewrite (N.mod_small (s + 128) 256) by lia.
      assert (E2 : N.land (s + 128) 128 = 128%N).
      { assert (H : forall k, (k < 128)%N -> N.land (k + 128) 128 = 128%N); [|apply H; lia].
        intros k Hk. rewrite <- (N.mod_small k 128) at 1 by exact Hk.
        assert (F : forallb (fun n => N.eqb (N.land (N.of_nat n + 128) 128) 128) (seq 0 128) = true) by (vm_compute; reflexivity).
        rewrite forallb_forall in F. specialize (F (N.to_nat k)). rewrite N2Nat.id in F.
        rewrite N.mod_small by exact Hk. apply N.eqb_eq. apply F. apply in_seq. lia. }
      rewrite E2. reflexivity.
    + rewrite N.add_0_r. rewrite (N.mod_small s 128), (N.mod_small s 256) by lia.
      destruct (N.eqb_spec s 0); [lia|].
      assert (E2 : N.land s 128 = 0%N).
      { assert (F : forallb (fun n => N.eqb (N.land (N.of_nat n) 128) 0) (seq 0 128) = true) by (vm_compute; reflexivity).
        rewrite forallb_forall in F. specialize (F (N.to_nat s)). rewrite N2Nat.id in F.
        apply N.eqb_eq. apply F. apply in_seq. lia. }
      rewrite E2. cbn [N.eqb negb].
      destruct (N.eqb_spec s 65535); [lia|]. destruct (N.eqb_spec s 127); [lia|]. reflexivity.
  - apply andb_true_iff in V. destruct V as [V1 V2]. apply N.leb_le in V1, V2.
    replace ((s * 256 + 127) mod 128)%N with 127%N.
    2:{ replace (s * 256 + 127)%N with (127 + (2 * s) * 128)%N by lia. now rewrite N.mod_add. }
    replace ((s * 256 + 127) mod 256)%N with 127%N.
    2:{ rewrite N.add_comm. now rewrite N.mod_add. }
    cbn [N.eqb Pos.eqb negb andb N.land Pos.land].
    replace (N.eqb (N.land 127 128) 0) with true by reflexivity. cbn [negb].
    destruct (N.eqb_spec (s * 256 + 127) 65535); [lia|].
    replace ((s * 256 + 127) / 256)%N with s.
    + now rewrite N.mod_small by lia.
    + rewrite N.add_comm, N.div_add by discriminate. reflexivity.
  - congruence.
Qed.
Theorem continued_wrong : classify (status_word CCont) = (CLD_DUMPED, 127%N).
Proof. reflexivity. Qed.
Lemma classify_exit e : valid_event e = true ->
  N.eqb (fst (classify (status_word e))) CLD_EXITED = match e with CExit _ => true | _ => false end.
Proof.
  intros V. destruct e as [c|s core|s|].
  1-3: rewrite classify_ok by (auto; discriminate); cbn; try reflexivity; destruct core; reflexivity.
  reflexivity.
Qed.

(** ** Frames *)
Lemma upd_same {A} (f : nat -> A) i a : upd f i a i = a.
Proof. unfold upd. now rewrite Nat.eqb_refl. Qed.
Lemma upd_other {A} (f : nat -> A) i a j : j <> i -> upd f i a j = f j.
Proof. unfold upd. destruct (Nat.eqb_spec i j); congruence. Qed.
Lemma updN_same {A} (f : N -> A) i a : updN f i a i = a.
Proof. unfold updN. now rewrite N.eqb_refl. Qed.
Lemma updN_other {A} (f : N -> A) i a j : j <> i -> updN f i a j = f j.
Proof. unfold updN. destruct (N.eqb_spec i j); congruence. Qed.

Definition core (x y : item) : Prop :=
  i_kind x = i_kind y /\ i_pl x = i_pl y /\ i_last x = i_last y /\ i_done x = i_done y /\ i_seen x = i_seen y.
Definition pcore (x y : pline) : Prop := p_items x = p_items y /\ p_inter x = p_inter y /\ p_bad x = p_bad y.
Record frame (w w' : world) : Prop := {
  f_kern : w_kern w' = w_kern w; f_chld : w_chld w' = w_chld w; f_reaping : w_reaping w' = w_reaping w;
  f_reg : w_reg w' = w_reg w; f_ni : w_ni w' = w_ni w; f_np : w_np w' = w_np w; f_hist : w_hist w' = w_hist w;
  f_item : forall i, core (w_item w' i) (w_item w i);
  f_pl : forall p, pcore (w_pl w' p) (w_pl w p);
  f_nw : w_nw w <= w_nw w';
  f_kills : incl (w_kills w) (w_kills w') }.
Lemma core_refl x : core x x. Proof. repeat split. Qed.
Lemma pcore_refl x : pcore x x. Proof. repeat split. Qed.
Lemma core_trans x y z : core x y -> core y z -> core x z.
Proof. unfold core. intuition congruence. Qed.
Lemma pcore_trans x y z : pcore x y -> pcore y z -> pcore x z.
Proof. unfold pcore. intuition congruence. Qed.
Lemma frame_refl w : frame w w.
Proof. constructor; auto using incl_refl; intros; apply core_refl || apply pcore_refl. Qed.
Lemma frame_trans a b c : frame a b -> frame b c -> frame a c.
Proof.
  intros A B. constructor; try (destruct A, B; congruence); try (destruct A, B; lia).
  - intros i. eapply core_trans; [apply (f_item _ _ B)|apply (f_item _ _ A)].
  - intros p. eapply pcore_trans; [apply (f_pl _ _ B)|apply (f_pl _ _ A)].
  - eapply incl_tran; [apply (f_kills _ _ A)|apply (f_kills _ _ B)].
Qed.
Lemma frame_set_pl w p x : pcore x (w_pl w p) -> frame w (set_pl w p x).
Proof.
  intros H. constructor; cbn; auto using incl_refl; intros q; [apply core_refl|]. unfold upd. destruct (Nat.eqb_spec p q); [now subst|apply pcore_refl].
Qed.
Lemma frame_set_item w i x : core x (w_item w i) -> frame w (set_item w i x).
Proof.
  intros H. constructor; cbn; auto using incl_refl; intros q; [|apply pcore_refl]. unfold upd. destruct (Nat.eqb_spec i q); [now subst|apply core_refl].
Qed.
Lemma frame_set_wt w t x : frame w (set_wt w t x).
Proof. constructor; cbn; auto using incl_refl; intros; apply core_refl || apply pcore_refl. Qed.
Lemma frame_set_running w l : frame w (set_running w l).
Proof. constructor; cbn; auto using incl_refl; intros; apply core_refl || apply pcore_refl. Qed.
Lemma frame_set_current w l : frame w (set_current w l).
Proof. constructor; cbn; auto using incl_refl; intros; apply core_refl || apply pcore_refl. Qed.
Lemma frame_set_kills w l : incl (w_kills w) l -> frame w (set_kills w l).
Proof. constructor; cbn; auto using incl_refl; intros; apply core_refl || apply pcore_refl. Qed.
Lemma frame_wake w p : frame w (wake w p).
Proof.
  unfold wake. destruct (p_future (w_pl w p)); [|apply frame_refl].
  eapply frame_trans; [|apply frame_set_wt]. apply frame_set_pl. repeat split.
Qed.
Lemma frame_hf w p : frame w (handle_finish w p).
Proof.
  unfold handle_finish. destruct (_ && _); [|apply frame_wake].
  destruct (p_bad (w_pl w p)) eqn:Eb.
  - apply frame_set_pl. repeat split. cbn. congruence.
  - eapply frame_trans; [|apply frame_wake]. eapply frame_trans; [|apply frame_set_running]. apply frame_set_pl. repeat split. cbn. congruence.
Qed.
Lemma frame_signal_item s w i : frame w (signal_item s w i).
Proof. unfold signal_item. destruct (i_kind _); try apply frame_refl. apply frame_set_kills. apply incl_appl, incl_refl. Qed.
Lemma frame_signals s l : forall w, frame w (fold_left (signal_item s) l w).
Proof. induction l as [|i l IH]; intros w; cbn; [apply frame_refl|]. eapply frame_trans; [apply frame_signal_item|apply IH]. Qed.
Lemma frame_set_susp w p b : frame w (set_susp w p b).
Proof. apply frame_set_pl. repeat split. Qed.
Lemma frame_restart w p : frame w (pl_restart w p).
Proof. unfold pl_restart. eapply frame_trans; [apply frame_set_susp|apply frame_signals]. Qed.
Lemma frame_suspend w p : frame w (pl_suspend w p).
Proof. unfold pl_suspend. eapply frame_trans; [apply frame_set_susp|apply frame_signals]. Qed.
Lemma frame_wait_loop w t : frame w (wait_loop w t).
Proof.
  unfold wait_loop. destruct (_ && _).
  - eapply frame_trans; [|apply frame_set_wt]. apply frame_set_pl. repeat split.
  - set (rr := if p_susp _ then _ else _).
    assert (F : frame w (fst rr)).
    { unfold rr. destruct (p_susp _); [apply frame_suspend|]. destruct (pl_failed _ _); apply frame_refl. }
    destruct rr as [w1 r]. cbn [fst] in F.
    assert (F2 : frame w (set_wt (set_current w1 None) t (mkW (wt_pl (w_wt w t)) (WDone r) (wt_owner (w_wt w t))))).
    { eapply frame_trans; [exact F|]. eapply frame_trans; [|apply frame_set_wt]. apply frame_set_current. }
    destruct (wt_owner (w_wt w t)); [|exact F2].
    destruct r; (eapply frame_trans; [exact F2|]).
    + eapply frame_trans; [|apply frame_hf]. apply frame_set_item. repeat split.
    + apply frame_set_item. repeat split.
    + apply frame_set_item. repeat split.
Qed.
Lemma frame_wait_begin w p o : frame w (wait_begin w p o).
Proof.
  unfold wait_begin. eapply frame_trans; [|apply frame_wait_loop]. eapply frame_trans; [|apply frame_restart].
  set (w1 := set_wts _ _ _).
  assert (F : frame w w1) by (constructor; cbn; auto using incl_refl; intros; apply core_refl || apply pcore_refl).
  destruct (p_inter _); [|exact F]. eapply frame_trans; [exact F|apply frame_set_current].
Qed.
Lemma frame_stop_event w : frame w (stop_event w).
Proof.
  unfold stop_event. destruct (w_current w) as [p|]; [|apply frame_refl].
  destruct (p_future _).
  - eapply frame_trans; [|apply frame_set_wt]. apply frame_set_pl. repeat split.
  - apply frame_set_pl. repeat split.
Qed.

(** running and failed depend on the framed part only *)
Lemma existsb_ext' {A} (f g : A -> bool) l : (forall x, f x = g x) -> existsb f l = existsb g l.
Proof. intros H. induction l as [|x l IH]; cbn; [reflexivity|]. now rewrite H, IH. Qed.
Lemma frame_running_f w w' : frame w w' -> forall f i, running_f f w' i = running_f f w i.
Proof.
  intros F. induction f as [|f IH]; intros i; cbn; destruct (f_item _ _ F i) as [-> [_ [_ [-> _]]]]; [reflexivity|].
  destruct (i_kind (w_item w i)); auto. destruct (f_pl _ _ F pl) as [-> _]. now apply existsb_ext'.
Qed.
Lemma frame_item_running w w' i : frame w w' -> item_running w' i = item_running w i.
Proof. intros F. unfold item_running. rewrite (f_np _ _ F). now apply frame_running_f. Qed.
Lemma frame_pl_running w w' p : frame w w' -> pl_running w' p = pl_running w p.
Proof.
  intros F. unfold pl_running. destruct (f_pl _ _ F p) as [-> _]. apply existsb_ext'. intros i. now apply frame_item_running.
Qed.

(** ** Registry *)
Lemma hkey_eqb_spec a b : reflect (a = b) (hkey_eqb a b).
Proof. destruct a as [p|], b as [q|]; cbn; try (constructor; congruence). destruct (N.eqb_spec p q); constructor; congruence. Qed.
Fixpoint rfind (r : list (hkey * nat)) (k : hkey) : option nat :=
  match r with [] => None | (k', h) :: r' => if hkey_eqb k' k then Some h else rfind r' k end.
Lemma rfind_In r k h : rfind r k = Some h -> In (k, h) r.
Proof.
  induction r as [|[k' h'] r IH]; cbn; [discriminate|]. destruct (hkey_eqb_spec k' k) as [->|]; [|auto].
  intros X. injection X as ->. auto.
Qed.
Lemma rfind_None r k : rfind r k = None -> forall h, ~ In (k, h) r.
Proof.
  induction r as [|[k' h'] r IH]; cbn; [auto|]. destruct (hkey_eqb_spec k' k) as [->|Hn]; [discriminate|].
  intros X h [Y|Y]; [congruence|eapply IH; eauto].
Qed.
Lemma In_rfind r k h : NoDup (map fst r) -> In (k, h) r -> rfind r k = Some h.
Proof.
  induction r as [|[k' h'] r IH]; cbn; [intros _ []|]. intros Hn. inversion Hn; subst. intros [X|X].
  - injection X as -> ->. destruct (hkey_eqb_spec k k); congruence.
  - destruct (hkey_eqb_spec k' k) as [->|]; [|auto]. exfalso. apply H1. now apply (in_map fst) in X.
Qed.
Lemma reg_set_keys r k h : map fst (reg_set r k h) = map fst r \/ (map fst (reg_set r k h) = map fst r ++ [k] /\ ~ In k (map fst r)).
Proof.
  induction r as [|[k0 h0] r IH]; cbn; [auto|]. destruct (hkey_eqb_spec k0 k) as [->|Hn]; cbn; [auto|].
  destruct IH as [->|[-> X]]; [auto|]. right. split; [reflexivity|]. intros [Y|Y]; auto.
Qed.
Lemma NoDup_snoc {A} (l : list A) x : NoDup l -> ~ In x l -> NoDup (l ++ [x]).
Proof.
  intros H Hn. induction H as [|y l Hy H IH]; cbn; [repeat constructor; auto|].
  constructor; [|apply IH; intros X; apply Hn; now right].
  intros X. apply in_app_or in X. destruct X as [X|[X|[]]]; [auto|]. subst. apply Hn. now left.
Qed.
Lemma reg_set_NoDup r k h : NoDup (map fst r) -> NoDup (map fst (reg_set r k h)).
Proof. intros H. destruct (reg_set_keys r k h) as [->|[-> X]]; [auto|now apply NoDup_snoc]. Qed.
Lemma reg_set_In r k h k' h' : NoDup (map fst r) -> In (k', h') (reg_set r k h) -> (k' = k /\ h' = h) \/ (k' <> k /\ In (k', h') r).
Proof.
  induction r as [|[k0 h0] r IH]; cbn; intros Hn.
  - intros [X|[]]. injection X as -> ->. auto.
  - inversion Hn; subst. destruct (hkey_eqb_spec k0 k) as [->|Hk]; cbn.
    + intros [X|X]; [injection X as -> ->; auto|]. right. split; [|auto].
      intros ->. apply H1. now apply (in_map fst) in X.
    + intros [X|X]; [injection X as -> ->; auto|]. destruct (IH H2 X) as [?|[? ?]]; auto.
Qed.
Lemma reg_set_In1 r k h : In (k, h) (reg_set r k h).
Proof. induction r as [|[k0 h0] r IH]; cbn; [auto|]. destruct (hkey_eqb_spec k0 k) as [->|]; cbn; auto. Qed.
Lemma reg_set_In2 r k h k' h' : k' <> k -> In (k', h') r -> In (k', h') (reg_set r k h).
Proof.
  intros Hk. induction r as [|[k0 h0] r IH]; cbn; [auto|]. intros [X|X].
  - injection X as -> ->. destruct (hkey_eqb_spec k' k); [congruence|]. now left.
  - destruct (hkey_eqb k0 k); [now right|right; auto].
Qed.
Lemma reg_del_In r k k' h : In (k', h) (reg_del r k) <-> k' <> k /\ In (k', h) r.
Proof.
  unfold reg_del. rewrite filter_In. cbn. destruct (hkey_eqb_spec k' k) as [->|]; cbn; intuition congruence.
Qed.
Lemma reg_del_NoDup r k : NoDup (map fst r) -> NoDup (map fst (reg_del r k)).
Proof.
  induction r as [|[k0 h0] r IH]; cbn; [auto|]. intros Hn. inversion Hn; subst.
  destruct (hkey_eqb_spec k0 k) as [->|]; cbn; [auto|]. constructor; [|auto].
  intros X. apply H1. apply in_map_iff in X. destruct X as [[k1 h1] [E X]]. cbn in E. subst.
  apply reg_del_In in X. apply in_map_iff. exists (k0, h1). now split.
Qed.

(** ** What delivering an event does *)
Definition regok (r : list (hkey * nat)) : Prop :=
  exists rest, r = (HStop, 0) :: rest /\ Forall (fun kh => exists pid, fst kh = HPid pid) rest /\ NoDup (map fst rest).
Lemma regok_NoDup r : regok r -> NoDup (map fst r).
Proof.
  intros [rest [-> [Hf Hn]]]. cbn. constructor; [|exact Hn]. intros X. apply in_map_iff in X.
  destruct X as [[k h] [E X]]. rewrite Forall_forall in Hf. destruct (Hf _ X) as [pid Y]. cbn in *. congruence.
Qed.
Lemma fold_nomatch e l : forall w, Forall (fun kh => matches e (fst kh) = false) l -> fold_left (dispatch1 e) l w = w.
Proof.
  induction l as [|kh l IH]; intros w Hf; cbn; [reflexivity|]. inversion Hf; subst. unfold dispatch1 at 2. rewrite H1. auto.
Qed.
Lemma fold_pid e l : forall w, Forall (fun kh => exists pid, fst kh = HPid pid) l -> NoDup (map fst l) ->
  fold_left (dispatch1 e) l w = match rfind l (HPid (ssi_pid e)) with Some i => proc_event w i e | None => w end.
Proof.
  induction l as [|[k h] l IH]; intros w Hf Hn; cbn [fold_left rfind]; [reflexivity|].
  inversion Hf as [|? ? [pid Hp] Hf']; subst. inversion Hn as [|? ? Hx Hn']; subst. cbn in Hp. subst k.
  unfold dispatch1 at 2. cbn [fst snd matches].
  destruct (hkey_eqb_spec (HPid pid) (HPid (ssi_pid e))) as [E|E].
  - injection E as ->. rewrite N.eqb_refl. apply fold_nomatch. apply Forall_forall. intros [k' h'] X.
    rewrite Forall_forall in Hf'. destruct (Hf' _ X) as [q Hq]. cbn in *. subst k'. cbn.
    destruct (N.eqb_spec (ssi_pid e) q) as [<-|]; [|reflexivity]. exfalso. apply Hx. now apply (in_map fst) in X.
  - destruct (N.eqb_spec (ssi_pid e) pid); [congruence|]. now apply IH.
Qed.
Lemma rfind_cons_stop rest pid : rfind ((HStop, 0) :: rest) (HPid pid) = rfind rest (HPid pid).
Proof. reflexivity. Qed.
Lemma dispatch_chld w e : regok (w_reg w) -> ssi_signo e = SIGCHLD ->
  dispatch w e = match rfind (w_reg w) (HPid (ssi_pid e)) with Some i => proc_event w i e | None => w end.
Proof.
  intros [rest [E [Hf Hn]]] Hs. unfold dispatch. rewrite E, rfind_cons_stop. cbn [fold_left].
  unfold dispatch1 at 2. cbn [fst matches]. rewrite Hs. cbn [N.eqb SIGCHLD SIGTSTP Pos.eqb]. now apply fold_pid.
Qed.
Lemma dispatch_tstp w e : regok (w_reg w) -> ssi_signo e = SIGTSTP ->
  dispatch w e = match rfind (w_reg w) (HPid (ssi_pid e)) with Some i => proc_event (stop_event w) i e | None => stop_event w end.
Proof.
  intros [rest [E [Hf Hn]]] Hs. unfold dispatch. rewrite E, rfind_cons_stop. cbn [fold_left].
  unfold dispatch1 at 2. cbn [fst snd matches]. rewrite Hs. cbn [N.eqb SIGTSTP Pos.eqb]. now apply fold_pid.
Qed.

(** ** Invariant of kernel, registry and items *)
Definition owner (c : kchild) : option nat := match c with KFree => None | KAlive i _ => Some i | KZombie i _ => Some i end.
Definition nonterm (e : child_event) : Prop := terminal e = false.
Record KI (w : world) : Prop := {
  k_reg : regok (w_reg w);
  k_regitem : forall pid i, In (HPid pid, i) (w_reg w) ->
    i < w_ni w /\ i_kind (w_item w i) = KProc pid /\ i_done (w_item w i) = None;
  k_kern : forall pid i, owner (w_kern w pid) = Some i -> In (HPid pid, i) (w_reg w) /\ Forall nonterm (w_hist w i);
  k_ev : forall pid, match w_kern w pid with
    | KZombie _ e => terminal e = true /\ valid_event e = true
    | KAlive _ (Some e) => terminal e = false /\ valid_event e = true
    | _ => True end;
  k_seen : forall i pid, i < w_ni w -> i_kind (w_item w i) = KProc pid ->
    filter is_chld (i_seen (w_item w i)) = map (fun e => sigchld_info pid (status_word e)) (w_hist w i);
  k_fate : forall i pid, i < w_ni w -> i_kind (w_item w i) = KProc pid ->
    owner (w_kern w pid) = Some i \/
    exists h e, w_hist w i = h ++ [e] /\ terminal e = true /\ valid_event e = true /\ Forall nonterm h /\
      match e with
      | CExit c => i_done (w_item w i) = Some false /\ exists x, i_last (w_item w i) = Some x /\ ssi_status x = c
      | _ => i_done (w_item w i) = None
      end;
  k_pend : forall pid, collectable (w_kern w pid) = true -> w_chld w = true \/ w_reaping w = true;
  k_fresh : forall i, w_ni w <= i -> w_hist w i = [] }.

Lemma KI_init : KI w_init.
Proof.
  constructor; cbn; try discriminate; auto; try lia.
  - exists []. repeat split; constructor.
  - intros pid i [X|[]]. discriminate.
Qed.
Lemma KI_frame w w' : frame w w' -> KI w -> KI w'.
Proof.
  intros [] K. destruct K. constructor.
  - congruence.
  - intros pid i H. rewrite f_reg0 in H. destruct (k_regitem0 _ _ H) as [A [B C]].
    destruct (f_item0 i) as [D [_ [_ [E _]]]]. rewrite f_ni0, D, E. auto.
  - intros pid i. rewrite f_kern0, f_reg0, f_hist0. auto.
  - intros pid. rewrite f_kern0. apply k_ev0.
  - intros i pid. destruct (f_item0 i) as [D [_ [_ [_ E]]]]. rewrite f_ni0, D, E, f_hist0. auto.
  - intros i pid. destruct (f_item0 i) as [D [_ [L [E _]]]]. rewrite f_ni0, f_kern0, D, E, L, f_hist0. apply k_fate0.
  - intros pid. rewrite f_kern0, f_chld0, f_reaping0. apply k_pend0.
  - intros i. rewrite f_ni0, f_hist0. auto.
Qed.

Lemma nonterm_snoc_eq (h h' : list child_event) e : Forall nonterm h' -> h' = h ++ [e] -> terminal e = true -> False.
Proof. intros Hf -> Ht. apply Forall_app in Hf. destruct Hf as [_ Hf]. inversion Hf. unfold nonterm in *. congruence. Qed.

Lemma KI_reap w pid i e c' : KI w ->
  (w_kern w pid = KAlive i (Some e) /\ c' = KAlive i None) \/ (w_kern w pid = KZombie i e /\ c' = KFree) ->
  w_reaping w = true ->
  KI (dispatch (set_hist (set_kern w (updN (w_kern w) pid c')) (upd (w_hist w) i (w_hist w i ++ [e]))) (sigchld_info pid (status_word e))).
Proof.
  intros K Hc Hr. set (w1 := set_hist _ _).
  assert (Ho : owner (w_kern w pid) = Some i) by (destruct Hc as [[-> _]|[-> _]]; reflexivity).
  destruct (k_kern _ K _ _ Ho) as [Hin Hnt]. destruct (k_regitem _ K _ _ Hin) as [Hi [Hk Hd]].
  pose proof (k_reg _ K) as Hreg. pose proof (regok_NoDup _ Hreg) as Hnd.
  rewrite dispatch_chld by (auto; reflexivity). cbn [w_reg w1 set_hist set_kern ssi_pid sigchld_info].
  rewrite (In_rfind _ _ _ Hnd Hin).
  assert (Hev : valid_event e = true /\ terminal e = match c' with KFree => true | _ => false end).
  { pose proof (k_ev _ K pid) as X. destruct Hc as [[E ->]|[E ->]]; rewrite E in X; destruct X; auto. }
  destruct Hev as [Hv Ht].
  unfold proc_event. rewrite (classify_exit e Hv : N.eqb (ssi_code (sigchld_info pid (status_word e))) CLD_EXITED = _).
  cbn [w_item w1 set_hist set_kern]. rewrite Hk.
  set (info := sigchld_info pid (status_word e)).
  set (ex := match e with CExit _ => true | _ => false end).
  assert (Hex : ex = true -> c' = KFree).
  { unfold ex. destruct e; try discriminate. intros _. destruct c'; [reflexivity|discriminate|discriminate]. }
  set (it := mkI (KProc pid) (i_pl (w_item w i)) (Some info) (if ex then Some false else i_done (w_item w i)) (i_task (w_item w i)) (i_seen (w_item w i) ++ [info])).
  assert (G : forall r, r = (if ex then reg_del (w_reg w) (HPid pid) else w_reg w) -> KI (set_reg (set_item w1 i it) r)).
  { intros r ->.
    assert (Rin : forall k j, In (k, j) (if ex then reg_del (w_reg w) (HPid pid) else w_reg w) <-> In (k, j) (w_reg w) /\ (ex = true -> k <> HPid pid)).
    { intros k j. destruct ex; [rewrite reg_del_In; intuition|]. split; [intros X; split; [exact X|discriminate]|intros [X _]; exact X]. }
    assert (Kuniq : forall j q, i = j -> i_kind (w_item w j) = KProc q -> q = pid) by (intros j q <-; congruence).
    constructor; cbn [w_reg set_reg set_item set_items w1 set_hist set_kern w_kern w_chld w_reaping w_item w_ni w_hist].
    - destruct ex; [|exact Hreg]. destruct Hreg as [rest [-> [Hf Hn]]]. exists (reg_del rest (HPid pid)). split; [reflexivity|].
      split; [|now apply reg_del_NoDup]. apply Forall_forall. intros x X. apply filter_In in X. rewrite Forall_forall in Hf. now apply Hf.
    - intros q j X. apply Rin in X. destruct X as [X Xn]. destruct (k_regitem _ K _ _ X) as [A [B C]]. split; [exact A|].
      unfold upd. destruct (Nat.eqb_spec i j) as [<-|]; [|auto]. cbn. replace q with pid in * by congruence.
      split; [reflexivity|]. destruct ex; [now destruct (Xn eq_refl)|exact Hd].
    - intros q j X. unfold updN in X. destruct (N.eqb_spec pid q) as [<-|Hq].
      + destruct Hc as [[_ ->]|[_ ->]]; [|discriminate]. cbn in X. injection X as <-. split.
        * apply Rin. split; [exact Hin|]. intros Y. now apply Hex in Y.
        * rewrite upd_same. apply Forall_app. split; [exact Hnt|]. repeat constructor. exact Ht.
      + destruct (k_kern _ K _ _ X) as [A B]. split; [apply Rin; split; [exact A|congruence]|].
        destruct (k_regitem _ K _ _ A) as [_ [Y _]]. unfold upd. destruct (Nat.eqb_spec i j) as [<-|]; [congruence|exact B].
    - intros q. unfold updN. destruct (N.eqb_spec pid q) as [<-|]; [|apply K]. destruct Hc as [[_ ->]|[_ ->]]; exact Logic.I.
    - intros j q Hj. unfold upd. destruct (Nat.eqb_spec i j) as [<-|].
      + cbn. intros X. injection X as <-. rewrite filter_app, map_app. cbn. now rewrite (k_seen _ K i pid Hi Hk).
      + intros X. now apply (k_seen _ K).
    - intros j q Hj. unfold upd. destruct (Nat.eqb_spec i j) as [<-|Hij].
      + cbn. intros X. injection X as <-. rewrite updN_same. destruct Hc as [[_ ->]|[_ ->]]; [left; reflexivity|right].
        exists (w_hist w i), e. split; [reflexivity|]. split; [exact Ht|]. split; [exact Hv|]. split; [exact Hnt|]. unfold ex.
        destruct e as [c|s k|s|]; try discriminate Ht.
        * split; [reflexivity|]. exists info. split; [reflexivity|]. unfold info, sigchld_info. cbn [ssi_status].
          rewrite classify_ok by (auto; discriminate). reflexivity.
        * exact Hd.
      + intros X. destruct (k_fate _ K j q Hj X) as [Y|Y]; [left|right; exact Y].
        unfold updN. destruct (N.eqb_spec pid q) as [<-|]; [congruence|exact Y].
    - intros q. rewrite Hr. auto.
    - intros j Hj. unfold upd. destruct (Nat.eqb_spec i j) as [<-|]; [lia|]. now apply (k_fresh _ K). }
  destruct ex eqn:Ee.
  - apply G. reflexivity.
  - change (set_item w1 i it) with (set_reg (set_item w1 i it) (w_reg w)). apply G. reflexivity.
Qed.

Lemma KI_tstp w sender : KI w -> KI (dispatch w (mkSI SIGTSTP sender 0 0)).
Proof.
  intros K. rewrite dispatch_tstp by (auto using k_reg; reflexivity). cbn [ssi_pid].
  assert (K1 : KI (stop_event w)) by (eapply KI_frame; [apply frame_stop_event|exact K]).
  assert (E : w_reg w = w_reg (stop_event w)) by (symmetry; apply frame_stop_event). rewrite E. clear E.
  set (w1 := stop_event w) in *. destruct (rfind (w_reg w1) (HPid sender)) as [i|] eqn:Er; [|exact K1].
  apply rfind_In in Er. destruct (k_regitem _ K1 _ _ Er) as [Hi [Hk Hd]].
  unfold proc_event. cbn [ssi_code]. cbn [N.eqb CLD_EXITED].
  set (e := mkSI SIGTSTP sender 0 0). destruct K1. constructor; cbn; auto.
  - intros q j X. destruct (k_regitem0 _ _ X) as [A [B C]]. unfold upd. destruct (Nat.eqb_spec i j) as [<-|]; auto.
  - intros j q Hj. unfold upd. destruct (Nat.eqb_spec i j) as [<-|]; [|now apply k_seen0].
    cbn. intros X. rewrite filter_app. cbn. rewrite app_nil_r. now apply k_seen0.
  - intros j q Hj. unfold upd. destruct (Nat.eqb_spec i j) as [<-|]; [|now apply k_fate0].
    cbn. intros X. destruct (k_fate0 i q Hj X) as [Y|[h [e0 [A [B [B' [C D]]]]]]]; [left; exact Y|right].
    exists h, e0. repeat (split; [assumption|]). destruct e0; auto. destruct D. congruence.
Qed.

Lemma KI_start_item p w s : KI w -> match s with SProc pid => w_kern w pid = KFree | _ => True end -> KI (start_item p w s).
Proof.
  intros K Hs. destruct s as [pid| |q]; unfold start_item.
  - pose proof (regok_NoDup _ (k_reg _ K)) as Hnd.
    constructor; cbn [w_reg set_reg set_items set_kern w_kern w_chld w_reaping w_item w_ni w_hist].
    + destruct (k_reg _ K) as [rest [-> [Hf Hn]]]. exists (reg_set rest (HPid pid) (w_ni w)). split; [reflexivity|].
      split; [|now apply reg_set_NoDup]. apply Forall_forall. intros [k h] X. apply reg_set_In in X; [|exact Hn].
      destruct X as [[-> _]|[_ X]]; [cbn; eauto|]. rewrite Forall_forall in Hf. now apply (Hf _ X).
    + intros q i X. apply reg_set_In in X; [|exact Hnd]. destruct X as [[E ->]|[_ X]].
      * injection E as ->. rewrite upd_same. cbn. split; [lia|auto].
      * destruct (k_regitem _ K _ _ X) as [A B]. rewrite upd_other by lia. split; [lia|exact B].
    + intros q i. unfold updN. destruct (N.eqb_spec pid q) as [<-|Hq].
      * cbn. intros X. injection X as <-. split; [apply reg_set_In1|]. rewrite (k_fresh _ K) by lia. constructor.
      * intros X. destruct (k_kern _ K _ _ X) as [A B]. split; [|exact B]. apply reg_set_In2; [congruence|exact A].
    + intros q. unfold updN. destruct (N.eqb_spec pid q); [exact Logic.I|apply K].
    + intros i q Hi. unfold upd. destruct (Nat.eqb_spec (w_ni w) i) as [<-|].
      * intros X. cbn in *. now rewrite (k_fresh _ K) by lia.
      * intros X. apply (k_seen _ K); [lia|exact X].
    + intros i q Hi. unfold upd. destruct (Nat.eqb_spec (w_ni w) i) as [<-|].
      * cbn. intros X. injection X as <-. rewrite updN_same. left. reflexivity.
      * intros X. destruct (k_fate _ K i q ltac:(lia) X) as [Y|Y]; [left|right; exact Y].
        unfold updN. destruct (N.eqb_spec pid q) as [<-|]; [|exact Y]. rewrite Hs in Y. discriminate.
    + intros q. unfold updN. destruct (N.eqb_spec pid q) as [<-|]; [discriminate|]. apply K.
    + intros i Hi. apply (k_fresh _ K). lia.
  - destruct K. constructor; cbn; auto.
    + intros q i X. destruct (k_regitem0 _ _ X) as [A B]. rewrite upd_other by lia. split; [lia|exact B].
    + intros i q Hi. unfold upd. destruct (Nat.eqb_spec (w_ni w) i) as [<-|]; [discriminate|]. apply k_seen0. lia.
    + intros i q Hi. unfold upd. destruct (Nat.eqb_spec (w_ni w) i) as [<-|]; [discriminate|]. apply k_fate0. lia.
    + intros i Hi. apply k_fresh0. lia.
  - destruct K. constructor; cbn; auto.
    + intros q' i X. destruct (k_regitem0 _ _ X) as [A B]. rewrite upd_other by lia. split; [lia|exact B].
    + intros i q' Hi. unfold upd. destruct (Nat.eqb_spec (w_ni w) i) as [<-|]; [discriminate|]. apply k_seen0. lia.
    + intros i q' Hi. unfold upd. destruct (Nat.eqb_spec (w_ni w) i) as [<-|]; [discriminate|]. apply k_fate0. lia.
    + intros i Hi. apply k_fresh0. lia.
Qed.
Lemma KI_start_items p w0 : forall ss w used, KI w ->
  (forall pid, ~ In pid used -> w_kern w pid = w_kern w0 pid) -> startable w0 used ss = true ->
  KI (fold_left (start_item p) ss w).
Proof.
  induction ss as [|s ss IH]; intros w used K Hu Hs; cbn; [exact K|].
  destruct s as [pid| |q]; cbn in Hs.
  - apply andb_true_iff in Hs. destruct Hs as [Hs Hs3]. apply andb_true_iff in Hs. destruct Hs as [Hs Hs2].
    apply andb_true_iff in Hs. destruct Hs as [Hs0 Hs1].
    assert (Nu : ~ In pid used).
    { intros X. apply negb_true_iff in Hs1. rewrite <- Bool.not_true_iff_false, existsb_exists in Hs1. apply Hs1. exists pid. split; [exact X|apply N.eqb_refl]. }
    apply (IH _ (pid :: used)); [|intros q Hq; cbn|exact Hs3].
    + apply KI_start_item; [exact K|]. rewrite Hu by exact Nu. destruct (w_kern w0 pid); [reflexivity|discriminate|discriminate].
    + rewrite updN_other by (intros ->; apply Hq; now left). apply Hu. intros X. apply Hq. now right.
  - apply (IH _ used); auto. apply (KI_start_item p w SFun); auto.
  - apply andb_true_iff in Hs. destruct Hs as [_ Hs]. apply (IH _ used); auto. apply (KI_start_item p w (SFg q)); auto.
Qed.
(** Changing pipelines only *)
Lemma KI_set_pls w f n : KI w -> KI (set_pls w f n).
Proof. intros []. constructor; cbn; auto. Qed.

Lemma KI_step mgr w l w' : KI w -> step mgr w l = Some w' -> KI w'.
Proof.
  intros K. destruct l as [pid e| |pid| |sender|i fl|i|t|ss inter bad|p|p|p]; cbn [step].
  - destruct (w_kern w pid) as [|i pend|] eqn:Ek; try discriminate. destruct (valid_event e) eqn:Ev; [|discriminate].
    intros X. injection X as <-. destruct K. constructor; cbn -[Nat.ltb]; auto.
    + intros q j. unfold updN. destruct (N.eqb_spec pid q) as [<-|]; [|apply k_kern0].
      intros X. apply k_kern0. rewrite Ek. destruct (terminal e); exact X.
    + intros q. unfold updN. destruct (N.eqb_spec pid q) as [<-|]; [|apply k_ev0]. destruct (terminal e) eqn:Et; auto.
    + intros j q Hj X. destruct (k_fate0 j q Hj X) as [Y|Y]; [left|right; exact Y].
      unfold updN. destruct (N.eqb_spec pid q) as [<-|]; [|exact Y]. rewrite Ek in Y. destruct (terminal e); exact Y.
  - destruct (w_chld w && negb (w_reaping w)); [|discriminate]. intros X. injection X as <-. destruct K. constructor; cbn -[Nat.ltb]; auto.
  - destruct (w_reaping w) eqn:Er; [|discriminate].
    destruct (w_kern w pid) as [|i [e|]|i e] eqn:Ek; try discriminate; intros X; injection X as <-; apply KI_reap; auto.
  - destruct (w_reaping w && nothing_pending w) eqn:E; [|discriminate]. intros X. injection X as <-.
    apply andb_true_iff in E. destruct E as [_ E]. unfold nothing_pending in E. rewrite forallb_forall in E.
    pose proof K as K0. destruct K. constructor; cbn; auto.
    intros pid Hc. exfalso. assert (Ho : exists i, owner (w_kern w pid) = Some i).
    { destruct (w_kern w pid) as [|i [e|]|i e]; try discriminate Hc; cbn; eauto. }
    destruct Ho as [i Ho]. destruct (k_kern0 _ _ Ho) as [A _]. destruct (k_regitem0 _ _ A) as [B [C _]].
    specialize (E i). rewrite C, Hc in E. cbn in E. assert (X : false = true) by (apply E; apply in_seq; lia). discriminate X.
  - destruct (w_reaping w); [discriminate|]. destruct mgr; intros X; injection X as <-.
    + now apply KI_tstp.
    + destruct K. constructor; cbn; auto.
  - destruct (w_reaping w); [discriminate|]. destruct (i_kind (w_item w i)) eqn:Ekd; try discriminate.
    destruct (i_done (w_item w i)) eqn:Ed; [discriminate|]. destruct (Nat.ltb_spec i (w_ni w)); [|discriminate].
    intros X. injection X as <-. destruct K. constructor; cbn -[Nat.ltb]; auto.
    + intros q j X. destruct (k_regitem0 _ _ X) as [A B]. unfold upd. destruct (Nat.eqb_spec i j) as [<-|]; [|auto].
      destruct B. congruence.
    + intros j q Hj. unfold upd. destruct (Nat.eqb_spec i j) as [<-|]; [discriminate|]. now apply k_seen0.
    + intros j q Hj. unfold upd. destruct (Nat.eqb_spec i j) as [<-|]; [discriminate|]. now apply k_fate0.
  - destruct (w_reaping w); [discriminate|]. destruct (i <? w_ni w); [|discriminate].
    assert (G : forall x, core x (w_item w i) -> KI (set_item w i x)) by (intros x Hx; eapply KI_frame; [now apply frame_set_item|exact K]).
    destruct (i_task (w_item w i)); destruct (i_kind (w_item w i)) eqn:Ekd; try discriminate;
      try (destruct (i_done (w_item w i)) as [[|]|] eqn:Ed; try discriminate); intros X; injection X as <-;
      try (eapply KI_frame; [apply frame_wait_begin|]); try (eapply KI_frame; [apply frame_hf|]); apply G; repeat split; cbn; congruence.
  - destruct (w_reaping w); [discriminate|]. destruct (t <? w_nw w); [|discriminate].
    destruct (wt_phase (w_wt w t)); try discriminate. intros X. injection X as <-. eapply KI_frame; [apply frame_wait_loop|exact K].
  - destruct (w_reaping w); [discriminate|]. destruct (startable w [] ss) eqn:Es; [|discriminate]. intros X. injection X as <-.
    unfold do_start. eapply KI_frame; [apply frame_set_running|]. eapply KI_frame; [apply frame_hf|]. apply KI_set_pls.
    apply (KI_start_items _ w _ _ []); auto.
  - destruct (w_reaping w); [discriminate|]. destruct (p <? w_np w); [|discriminate]. intros X. injection X as <-.
    eapply KI_frame; [apply frame_wait_begin|exact K].
  - destruct (w_reaping w); [discriminate|]. destruct (p <? w_np w); [|discriminate]. intros X. injection X as <-.
    eapply KI_frame; [apply frame_suspend|exact K].
  - destruct (w_reaping w); [discriminate|]. destruct (p <? w_np w); [|discriminate]. intros X. injection X as <-.
    eapply KI_frame; [apply frame_restart|exact K].
Qed.
Lemma KI_steps mgr ls : forall w w', KI w -> steps mgr w ls = Some w' -> KI w'.
Proof.
  induction ls as [|l ls IH]; intros w w' K; cbn.
  - intros X. injection X as <-. exact K.
  - destruct (step mgr w l) as [w1|] eqn:E; [|discriminate]. apply IH. eapply KI_step; eauto.
Qed.
Lemma KI_reach mgr w : reachable mgr w -> KI w.
Proof. intros [ls H]. eapply KI_steps; [apply KI_init|exact H]. Qed.
