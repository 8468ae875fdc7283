From Verif Require Import Py SigModel SigSpec.
From Coq Require Import Permutation Sorting.Sorted Ascii.

(** String order *)
Lemma compare_trans_lt a : forall b c, String.compare a b = Lt -> String.compare b c = Lt -> String.compare a c = Lt.
Proof.
  induction a as [|x a IH]; intros [|y b] [|z c]; cbn; try congruence.
  unfold Ascii.compare. intros H1 H2.
  destruct (N.compare_spec (N_of_ascii x) (N_of_ascii y)) as [E1|L1|L1]; [| |discriminate];
  destruct (N.compare_spec (N_of_ascii y) (N_of_ascii z)) as [E2|L2|L2]; try discriminate.
  - rewrite E1, E2, N.compare_refl. eauto.
  - rewrite E1. apply N.compare_lt_iff in L2. now rewrite L2.
  - rewrite <- E2. apply N.compare_lt_iff in L1. now rewrite L1.
  - assert (L : (N_of_ascii x < N_of_ascii z)%N) by lia. apply N.compare_lt_iff in L. now rewrite L.
Qed.
Definition str_lt a b := String.compare a b = Lt.
Lemma str_lt_irrefl a : ~ str_lt a a.
Proof.
  unfold str_lt. induction a as [|x a IH]; cbn; [discriminate|]. unfold Ascii.compare. now rewrite N.compare_refl.
Qed.
Lemma str_le_cases a b : a <> b -> if str_le a b then str_lt a b else str_lt b a.
Proof.
  intros N0. unfold str_le, str_lt. destruct (String.compare a b) eqn:E; [|reflexivity|].
  - apply String.compare_eq_iff in E. contradiction.
  - rewrite String.compare_antisym, E. reflexivity.
Qed.

Definition sorted_keys (l : fields) := StronglySorted (fun x y => str_lt (fst x) (fst y)) l.
Lemma insert_perm x l : Permutation (x :: l) (insert_item x l).
Proof.
  induction l as [|y l IH]; cbn; [reflexivity|]. destruct (str_le (fst x) (fst y)); [reflexivity|].
  rewrite perm_swap. now rewrite IH.
Qed.
Lemma key_perm f : Permutation f (filter_to_key f).
Proof. induction f as [|x f IH]; cbn; [reflexivity|]. rewrite <- insert_perm. now constructor. Qed.
Lemma insert_sorted x l : ~ In (fst x) (dkeys l) -> sorted_keys l -> sorted_keys (insert_item x l).
Proof.
  unfold sorted_keys. induction l as [|y l IH]; cbn; intros Hn Hs; [repeat constructor|].
  inversion Hs as [|? ? Hs' Hf]; subst.
  assert (Ne : fst x <> fst y) by intuition.
  pose proof (str_le_cases _ _ Ne) as C. destruct (str_le (fst x) (fst y)).
  - constructor; [exact Hs|]. constructor; [exact C|]. eapply Forall_impl; [|exact Hf]. intros z Hz. eapply compare_trans_lt; eauto.
  - constructor; [apply IH; auto|]. rewrite Forall_forall in *. intros z Hz.
    apply (Permutation_in _ (Permutation_sym (insert_perm x l))) in Hz as [<-|Hz]; auto.
Qed.
Lemma dkeys_perm (f g : fields) : Permutation f g -> Permutation (dkeys f) (dkeys g).
Proof. apply Permutation_map. Qed.
Lemma key_sorted f : wf_filter f -> sorted_keys (filter_to_key f).
Proof.
  unfold wf_filter. induction f as [|x f IH]; cbn; intros H; [constructor|]. inversion H; subst.
  apply insert_sorted; [|auto]. intros X. apply (Permutation_in _ (Permutation_sym (dkeys_perm _ _ (key_perm f)))) in X. auto.
Qed.
Lemma dget_perm (f g : fields) : wf_filter f -> Permutation f g -> same_filter f g.
Proof.
  intros W P k. assert (Wg : wf_filter g). { unfold wf_filter. eapply Permutation_NoDup; [apply dkeys_perm; eassumption|exact W]. }
  destruct (dget f k) eqn:E.
  - symmetry. apply In_dget; [exact Wg|]. eapply Permutation_in; [exact P|]. now apply dget_In.
  - destruct (dget g k) eqn:E2; [|reflexivity]. apply dget_In in E2.
    apply (Permutation_in _ (Permutation_sym P)) in E2. apply In_dget in E2; [congruence|exact W].
Qed.
Lemma sorted_unique : forall a b, sorted_keys a -> sorted_keys b -> (forall x, In x a <-> In x b) -> a = b.
Proof.
  unfold sorted_keys. induction a as [|x a IH]; intros b Sa Sb E.
  - destruct b as [|y b]; [reflexivity|]. exfalso. apply (E y). now left.
  - destruct b as [|y b]; [exfalso; apply (E x); now left|].
    inversion Sa as [|? ? Sa' Fa]; subst. inversion Sb as [|? ? Sb' Fb]; subst.
    rewrite Forall_forall in Fa, Fb.
    assert (x = y).
    { destruct (proj1 (E x)) as [|Hx]; [now left|now symmetry|]. destruct (proj2 (E y)) as [|Hy]; [now left|assumption|].
      exfalso. apply (str_lt_irrefl (fst x)). eapply compare_trans_lt; [apply Fa; exact Hy|apply Fb; exact Hx]. }
    subst y. f_equal. apply IH; auto. intros z. split; intros Hz.
    + destruct (proj1 (E z)) as [->|]; [now right| |assumption]. exfalso. eapply str_lt_irrefl, Fa, Hz.
    + destruct (proj2 (E z)) as [->|]; [now right| |assumption]. exfalso. eapply str_lt_irrefl, Fb, Hz.
Qed.
Lemma key_same f g : wf_filter f -> wf_filter g -> (filter_to_key f = filter_to_key g <-> same_filter f g).
Proof.
  intros Wf Wg. split.
  - intros E k. rewrite (dget_perm _ _ Wf (key_perm f) k), (dget_perm _ _ Wg (key_perm g) k). now rewrite E.
  - intros S. apply sorted_unique; [now apply key_sorted..|]. intros [k v].
    assert (X : forall f, wf_filter f -> In (k, v) (filter_to_key f) <-> dget f k = Some v).
    { intros h Wh. split.
      - intros Hin. apply In_dget; [exact Wh|]. eapply Permutation_in; [symmetry; apply key_perm|exact Hin].
      - intros Hg. eapply Permutation_in; [apply key_perm|]. now apply dget_In. }
    rewrite (X f Wf), (X g Wg), (S k). reflexivity.
Qed.

(** Registry *)
Definition entry (h : handler) := (filter_to_key (h_filter h), h).
Definition sane (hs : list handler) := Forall (fun h => wf_filter (h_filter h)) hs /\
  ForallOrdPairs (fun g h => ~ same_filter (h_filter g) (h_filter h) /\ h_id g <> h_id h) hs.
Lemma dget_entries hs k : (forall h, In h hs -> filter_to_key (h_filter h) <> k) -> dget (map entry hs) k = None.
Proof.
  intros H. apply dget_None. unfold dkeys. rewrite map_map. intros X. apply in_map_iff in X as (h & E & Hin). exact (H h Hin E).
Qed.
Lemma FOP_app {A} (R : A -> A -> Prop) l x : ForallOrdPairs R l -> Forall (fun y => R y x) l -> ForallOrdPairs R (l ++ [x]).
Proof.
  induction 1 as [|y l F P IH]; cbn; intros H; [repeat constructor|]. inversion H; subst.
  constructor; [|auto]. apply Forall_app. auto.
Qed.
Lemma FOP_filter {A} (R : A -> A -> Prop) p l : ForallOrdPairs R l -> ForallOrdPairs R (filter p l).
Proof.
  induction 1 as [|y l F P IH]; cbn; [constructor|]. destruct (p y); [|exact IH]. constructor; [|exact IH].
  rewrite Forall_forall in *. intros z Hz. apply filter_In in Hz as [Hz _]. auto.
Qed.
Lemma FOP_in {A} (R : A -> A -> Prop) l x y : ForallOrdPairs R l -> In x l -> In y l -> x = y \/ R x y \/ R y x.
Proof.
  induction 1 as [|z l F P IH]; cbn; [tauto|]. rewrite Forall_forall in F. intros [->|Hx] [->|Hy]; auto.
Qed.
Lemma registry_live ops : forall hs, sane hs -> disciplined hs ops ->
  fold_left rstep ops (map entry hs) = map entry (live hs ops) /\ sane (live hs ops).
Proof.
  induction ops as [|[h|h] ops IH]; cbn [fold_left live disciplined]; intros hs Sn D; [auto| |].
  - destruct D as (W & N0 & D). cbn [rstep]. unfold register.
    rewrite dset_fresh.
    + change (map entry hs ++ [(filter_to_key (h_filter h), h)]) with (map entry hs ++ map entry [h]). rewrite <- map_app.
      apply IH; [|exact D]. destruct Sn as [S1 S2]. split; [apply Forall_app; auto|]. apply FOP_app; [exact S2|].
      rewrite Forall_forall. exact N0.
    + apply dget_entries. intros g Hg E. destruct Sn as [S1 _]. rewrite Forall_forall in S1.
      apply key_same in E; [|apply S1; exact Hg|exact W]. destruct (N0 g Hg) as [X _]. exact (X E).
  - destruct D as (Hin & D). cbn [rstep]. unfold deregister.
    destruct Sn as [S1 S2]. assert (S1' := S1). rewrite Forall_forall in S1'.
    assert (M : dmem (map entry hs) (filter_to_key (h_filter h)) = true).
    { unfold dmem. destruct (dget (map entry hs) (filter_to_key (h_filter h))) eqn:G; [reflexivity|].
      apply dget_None in G. exfalso. apply G. unfold dkeys. rewrite map_map. apply in_map_iff. exists h. auto. }
    rewrite M. assert (E : ddel (map entry hs) (filter_to_key (h_filter h)) = map entry (filter (fun g => negb (h_id g =? h_id h)) hs)).
    { unfold ddel. clear IH M D.
      assert (Same : forall g, In g hs -> keqb (filter_to_key (h_filter h)) (fst (entry g)) = (h_id g =? h_id h)).
      { intros g Hg. cbn [entry fst]. destruct (FOP_in _ _ g h S2 Hg Hin) as [->|[[X Y]|[X Y]]].
        - now rewrite keqb_refl, Nat.eqb_refl.
        - rewrite keqb_neq; [symmetry; now apply Nat.eqb_neq|]. intros E. symmetry in E. apply key_same in E; auto.
        - rewrite keqb_neq; [symmetry; apply Nat.eqb_neq; auto|]. intros E. apply key_same in E; auto. }
      clear -Same. induction hs as [|g hs IH]; [reflexivity|]. cbn [map filter]. rewrite Same by now left.
      destruct (h_id g =? h_id h); cbn [negb map]; rewrite IH; auto; intros; apply Same; now right. }
    rewrite E. apply IH; [|exact D]. split; [|now apply FOP_filter].
    rewrite Forall_forall. intros g Hg. apply filter_In in Hg as [Hg _]. auto.
Qed.

Lemma match_spec ev flt : wf_filter flt -> has_fields ev flt -> exists b, match_signal ev flt = Ok b /\ (b = true <-> matches ev flt).
Proof.
  unfold wf_filter, has_fields, matches. induction flt as [|[k v] flt IH]; cbn; intros W H.
  - exists true. split; [reflexivity|]. split; [intros _ k v; discriminate|reflexivity].
  - inversion W as [|? ? Hn W']; subst. destruct (dget ev k) as [x|] eqn:E; [|exfalso; now apply (H k); auto].
    destruct (N.eqb_spec x v) as [->|Ne].
    + destruct IH as (b & -> & B); [exact W'|intros; apply H; auto|]. exists b. split; [reflexivity|]. rewrite B.
      split; intros M k' v' G.
      * destruct (String.eqb_spec k' k) as [->|]; [congruence|auto].
      * apply M. destruct (String.eqb_spec k' k) as [->|]; [|exact G]. apply dget_None in Hn. congruence.
    + exists false. split; [reflexivity|]. split; [discriminate|]. intros M. specialize (M k v). rewrite String.eqb_refl in M. specialize (M eq_refl). congruence.
Qed.
Lemma dispatch_served ev hs : Forall (fun h => wf_filter (h_filter h)) hs -> Forall (fun h => has_fields ev (h_filter h)) hs ->
  forall raises, (forall h, In h hs -> raises h ev = None) -> exists l, dispatch raises ev hs = (l, None) /\ served ev hs l.
Proof.
  induction hs as [|h hs IH]; cbn; intros W F raises R; [exists []; split; [reflexivity|constructor]|].
  inversion W; inversion F; subst. destruct (IH ltac:(assumption) ltac:(assumption) raises) as (l & E & Sv); [intros; apply R; auto|].
  destruct (match_spec ev (h_filter h)) as (b & -> & B); [assumption..|]. destruct b.
  - rewrite (R h) by auto. rewrite E. exists (h_id h :: l). split; [reflexivity|]. constructor; [now apply B|exact Sv].
  - exists l. split; [exact E|]. apply served_no; [|exact Sv]. intros M. apply B in M. discriminate.
Qed.
Lemma registry_dispatch ops ev raises : disciplined [] ops ->
  (forall h, In h (live [] ops) -> has_fields ev (h_filter h) /\ raises h ev = None) ->
  exists l, dispatch raises ev (dvals (fold_left rstep ops [])) = (l, None) /\ served ev (live [] ops) l.
Proof.
  intros D H. destruct (registry_live ops []) as [E S1]; [split; constructor|exact D|]. cbn in E. rewrite E.
  assert (V : dvals (map entry (live [] ops)) = live [] ops). { unfold dvals. rewrite map_map. cbn. apply map_id. }
  rewrite V. apply dispatch_served; [apply S1| |].
  - rewrite Forall_forall. intros h Hh. now apply H.
  - intros h Hh. now apply H.
Qed.

(** A second handler with the same filter: the first is no longer served, and
    removing the first removes the second. *)
Lemma dvals_dset_In {K V} {KK : Key K} (d : dict K V) k v x : NoDup (dkeys d) -> In x (dvals (dset d k v)) -> x = v \/ exists k', k' <> k /\ dget d k' = Some x.
Proof.
  intros Nd H. unfold dvals in H. apply in_map_iff in H as ([k' y] & <- & H). cbn.
  apply In_dget in H; [|now apply dset_NoDup]. rewrite dget_dset in H. destruct (keqb_spec k' k) as [->|]; [left; congruence|right; eauto].
Qed.
Definition reg_ok (r : registry) : Prop := NoDup (dkeys r) /\ forall k x, dget r k = Some x -> k = filter_to_key (h_filter x).
Lemma reg_ok_step r o : reg_ok r -> reg_ok (rstep r o).
Proof.
  intros [N0 K]. destruct o as [h|h]; cbn.
  - unfold register. split; [now apply dset_NoDup|]. intros k x. rewrite dget_dset. destruct (keqb_spec k (filter_to_key (h_filter h))) as [->|]; [intros E; injection E as <-; reflexivity|apply K].
  - unfold deregister. destruct (dmem r _); [|split; assumption]. split; [now apply ddel_NoDup|].
    intros k x. rewrite dget_ddel. destruct (keqb k _); [discriminate|apply K].
Qed.
Lemma reg_ok_reach ops : forall r, reg_ok r -> reg_ok (fold_left rstep ops r).
Proof. induction ops as [|o ops IH]; cbn; intros r H; [exact H|]. apply IH. now apply reg_ok_step. Qed.
Lemma reg_ok_nil : reg_ok [].
Proof. split; [constructor|]. cbn. discriminate. Qed.
Lemma evicted r h g : wf_filter (h_filter h) -> wf_filter (h_filter g) -> same_filter (h_filter h) (h_filter g) -> h <> g ->
  reg_ok r -> ~ In h (dvals (register (register r h) g)).
Proof.
  intros Wh Wg S Ne [Nd Ok] X. assert (K : filter_to_key (h_filter h) = filter_to_key (h_filter g)) by now apply key_same.
  unfold register in X. apply dvals_dset_In in X; [|now apply dset_NoDup]. destruct X as [->|(k & Nk & G)]; [auto|].
  rewrite dget_dset in G. destruct (keqb_spec k (filter_to_key (h_filter h))) as [->|]; [congruence|].
  apply Ok in G as ->. congruence.
Qed.
Lemma removes_other r h g : wf_filter (h_filter h) -> wf_filter (h_filter g) -> same_filter (h_filter h) (h_filter g) -> reg_ok r ->
  exists r', deregister (register (register r h) g) h = Ok r' /\ ~ In g (dvals r') /\ deregister r' g = Err KeyError.
Proof.
  intros Wh Wg S R. assert (K : filter_to_key (h_filter h) = filter_to_key (h_filter g)) by now apply key_same.
  pose proof (reg_ok_step _ (RReg g) (reg_ok_step _ (RReg h) R)) as R2. cbn [rstep] in R2.
  pose proof (reg_ok_step _ (RDereg h) R2) as R3. cbn [rstep] in R3.
  assert (M : dmem (register (register r h) g) (filter_to_key (h_filter h)) = true).
  { unfold register, dmem. rewrite K, dget_dset, keqb_refl. reflexivity. }
  unfold deregister in *. rewrite M in *. eexists. split; [reflexivity|].
  assert (G : dget (ddel (register (register r h) g) (filter_to_key (h_filter h))) (filter_to_key (h_filter g)) = None).
  { rewrite dget_ddel, K, keqb_refl. reflexivity. }
  split; [|unfold dmem; now rewrite G].
  intros X. unfold dvals in X. apply in_map_iff in X as ([k y] & <- & X). cbn in *. destruct R3 as [Nd Ok].
  apply In_dget in X; [|exact Nd]. pose proof (Ok _ _ X) as ->. congruence.
Qed.
(** An exception in one handler: the handlers after it and the events after this
    one are not served. *)
Lemma raising_stops raises ev hs1 h hs2 e : match_signal ev (h_filter h) = Ok true -> raises h ev = Some e ->
  Forall (fun g => match_signal ev (h_filter g) <> Err KeyError /\ raises g ev = None) hs1 ->
  exists l, dispatch raises ev (hs1 ++ h :: hs2) = (l ++ [h_id h], Some e) /\ incl l (map h_id hs1).
Proof.
  intros M R. induction hs1 as [|g hs1 IH]; cbn; intros F.
  - rewrite M, R. exists []. split; [reflexivity|intros x []].
  - inversion F as [|? ? [F1 F2] F']; subst. destruct (IH F') as (l & -> & I).
    assert (Me : forall flt e', match_signal ev flt = Err e' -> e' = KeyError).
    { clear. induction flt as [|[k v] flt IH]; cbn; [congruence|]. intros e'. destruct (dget ev k); [|congruence]. destruct (N.eqb n v); [apply IH|discriminate]. }
    destruct (match_signal ev (h_filter g)) as [[|]|e'] eqn:Mg.
    + rewrite F2. exists (h_id g :: l). split; [reflexivity|]. apply incl_cons; [now left|]. now apply incl_tl.
    + exists l. split; [reflexivity|]. now apply incl_tl.
    + exfalso. apply F1. f_equal. eapply Me; eauto.
Qed.
Lemma raising_drops_batch raises ev evs r : snd (dispatch raises ev (dvals r)) <> None ->
  List.length (fst (dispatch_all raises (ev :: evs) r)) = 1.
Proof. cbn. destruct (dispatch raises ev (dvals r)) as [l [e|]]; cbn; congruence. Qed.

(** SignalIteratorHandler *)
Definition si_inv {E} (s : sigiter E) : Prop :=
  si_got s ++ rev (si_buf s) = si_sent s /\
  (si_phase s = Waiting -> si_fut s = FPending /\ si_buf s = []) /\
  (si_phase s = Woken -> si_fut s = FDone /\ si_buf s <> []) /\
  (si_phase s = Idle -> si_fut s <> FPending).
Lemma si_pop_inv {E} (s : sigiter E) : si_inv s -> si_buf s <> [] -> si_fut s <> FPending -> exists s', si_pop s = Some s' /\ si_inv s' /\ si_fut s' = si_fut s /\ si_phase s' = Idle /\ List.length (si_got s') = S (List.length (si_got s)).
Proof.
  intros (A & B & C & D) N0 F. unfold si_pop. destruct (rev (si_buf s)) as [|e r] eqn:E1.
  { exfalso. apply N0. rewrite <- (rev_involutive (si_buf s)), E1. reflexivity. }
  eexists. split; [reflexivity|]. repeat split; cbn; try discriminate; auto.
  - rewrite rev_involutive, <- app_assoc. cbn. exact A.
  - rewrite app_length. cbn. lia.
Qed.
Lemma si_step_inv {E} (s s' : sigiter E) l e : si_inv s -> si_step s l = Some (s', e) -> si_inv s' /\ e <> Some IndexError.
Proof.
  intros I. destruct l as [x| |]; cbn.
  - unfold si_event. destruct I as (A & B & C & D). destruct (si_fut s) eqn:F; intros H; injection H as <- <-; split; try congruence; (split; cbn; [now rewrite <- A, app_assoc|]).
    + split; [|split]; intros P; [destruct (B P); congruence|destruct (C P); congruence|congruence].
    + split; [|split]; intros P; [discriminate|split; [reflexivity|discriminate]|discriminate].
    + split; [|split]; intros P; [destruct (B P); congruence|split; [reflexivity|discriminate]|discriminate].
  - destruct (si_phase s) eqn:P; try discriminate. destruct (si_buf s) eqn:Bf.
    + intros H. injection H as <- <-. destruct I as (A & _). rewrite Bf in A. split; [|congruence]. repeat split; cbn; try discriminate; auto.
    + destruct (si_pop_inv s I) as (s2 & -> & I2 & _); [congruence|apply I; exact P|]. intros H. injection H as <- <-. split; [exact I2|congruence].
  - destruct (si_phase s) eqn:P; try discriminate. destruct (si_pop_inv s I) as (s2 & -> & I2 & _).
    + now apply I.
    + destruct I as (_ & _ & C & _). destruct (C P) as [-> _]. discriminate.
    + intros H. injection H as <- <-. split; [exact I2|congruence].
Qed.
Lemma si_reach {E} (ls : list (silabel E)) : forall s s' es, si_inv s -> si_steps s ls = Some (s', es) -> si_inv s' /\ ~ In IndexError es.
Proof.
  induction ls as [|l ls IH]; cbn; intros s s' es I H; [injection H as <- <-; auto|].
  destruct (si_step s l) as [[s1 e]|] eqn:St; [|discriminate]. destruct (si_step_inv _ _ _ _ I St) as [I1 Ne].
  destruct (si_steps s1 ls) as [[s2 es2]|] eqn:E2; [|discriminate]. injection H as <- <-. destruct (IH _ _ _ I1 E2) as [I2 N2].
  split; [exact I2|]. destruct e as [x|]; [|exact N2]. intros [->|X]; auto.
Qed.
Lemma si_init_inv {E} : si_inv (@si_init E).
Proof. repeat split; cbn; discriminate. Qed.
Lemma si_in_order {E} (ls : list (silabel E)) s es : si_steps si_init ls = Some (s, es) ->
  (exists rest, si_sent s = si_got s ++ rest) /\
  (si_sent s <> si_got s -> si_phase s <> Waiting) /\
  (si_phase s = Waiting -> forall e, exists s', si_step s (SiEvent e) = Some (s', None) /\
      exists s2, si_step s' SiWake = Some (s2, None) /\ si_got s2 = si_got s ++ [e]) /\
  (si_phase s = Idle -> si_sent s <> si_got s -> exists s', si_step s SiNext = Some (s', None) /\ List.length (si_got s') = S (List.length (si_got s))).
Proof.
  intros H. destruct (si_reach _ _ _ _ si_init_inv H) as [I _]. pose proof I as (A & B & C & D). split; [|split; [|split]].
  - eexists. symmetry. exact A.
  - intros Ne P. destruct (B P) as [_ Bf]. rewrite Bf in A. cbn in A. rewrite app_nil_r in A. congruence.
  - intros P e. destruct (B P) as [F Bf]. cbn. unfold si_event. rewrite F, Bf. eexists. split; [reflexivity|]. cbn. unfold si_pop. cbn. eexists. split; reflexivity.
  - intros P Ne. cbn. rewrite P. destruct (si_buf s) eqn:Bf.
    + cbn in A. rewrite app_nil_r in A. congruence.
    + destruct (si_pop_inv s I) as (s2 & -> & _ & _ & _ & L); [congruence|now apply D|]. eauto.
Qed.
(** After the consumer has waited once, the next event it did not ask for
    raises in the manager's loop. *)
Lemma si_second_raises {E} (s : sigiter E) e : si_fut s = FDone -> exists s', si_step s (SiEvent e) = Some (s', Some InvalidStateError) /\ si_fut s' = FDone.
Proof. intros F. cbn. unfold si_event. rewrite F. eexists. split; reflexivity. Qed.
Lemma si_done_after_wait {E} (ls : list (silabel E)) s es : si_steps si_init ls = Some (s, es) -> si_phase s = Waiting ->
  forall e1 e2, exists s1 s2 s3, si_step s (SiEvent e1) = Some (s1, None) /\ si_step s1 SiWake = Some (s2, None) /\
    si_step s2 (SiEvent e2) = Some (s3, Some InvalidStateError).
Proof.
  intros H P e1 e2. destruct (si_reach _ _ _ _ si_init_inv H) as [(A & B & _) _]. destruct (B P) as [F Bf].
  cbn. unfold si_event at 1. rewrite F, Bf. eexists _, _, _. split; [reflexivity|]. cbn. split; [unfold si_pop; cbn; reflexivity|]. cbn. reflexivity.
Qed.
