(** Proofs about redirect sets. *)
From Verif Require Import Py RedirModel RedirSpec.

Lemma wf_register rs r rs' : wf_redirects rs -> register rs r = Ok rs' -> wf_redirects rs'.
Proof.
  intros [Hnd Hall] H. unfold register in H.
  assert (Hset : r_source r <> SNone -> wf_redirects (dset rs (r_fd r) r)).
  { intros Hs. split; [now apply dset_NoDup|].
    clear H Hnd. induction Hall as [|[k x] l [H1 H2] Hl IH]; cbn.
    - constructor; [|constructor]. cbn. auto.
    - destruct (Nat.eqb_spec (r_fd r) k); constructor; cbn; auto. }
  destruct (r_source r) eqn:E; try (injection H as <-; apply Hset; congruence).
  destruct (dmem rs (r_fd r)); [|discriminate]. injection H as <-.
  split; [now apply ddel_NoDup|]. unfold ddel.
  clear - Hall. induction Hall as [|x l Hx Hl IH]; cbn; [constructor|].
  destruct (negb _); [constructor|]; auto.
Qed.

Lemma wf_register_list l rs rs' :
  wf_redirects rs -> register_list rs l = Ok rs' -> wf_redirects rs'.
Proof.
  revert rs. induction l as [|r l IH]; cbn; intros rs Hwf H; [congruence|].
  destruct (register rs r) as [rs1|] eqn:E; [|discriminate]. cbn in H.
  eapply IH; [|exact H]. eapply wf_register; eauto.
Qed.

Lemma wf_nil : wf_redirects [].
Proof. split; constructor. Qed.

Lemma wf_new_from items rs rs' :
  wf_redirects rs -> new_redirects_from rs items = Ok rs' -> wf_redirects rs'.
Proof.
  revert rs. induction items as [|it items IH]; cbn; intros rs Hwf H; [congruence|].
  destruct it as [o|r].
  - destruct (register_all rs o) as [rs1|] eqn:E; [|discriminate]. cbn in H.
    eapply IH; [|exact H]. eapply wf_register_list; [exact Hwf|exact E].
  - destruct (register rs r) as [rs1|] eqn:E; [|discriminate]. cbn in H.
    eapply IH; [|exact H]. eapply wf_register; eauto.
Qed.
Lemma wf_new items rs : new_redirects items = Ok rs -> wf_redirects rs.
Proof. apply wf_new_from, wf_nil. Qed.

Lemma wf_borrow rs : wf_redirects rs -> wf_redirects (borrow rs).
Proof.
  intros [H1 H2]. unfold borrow. split.
  - unfold dkeys. rewrite map_map. cbn. exact H1.
  - apply Forall_forall. intros x Hx. apply in_map_iff in Hx as [y [<- Hy]].
    rewrite Forall_forall in H2. now apply H2 in Hy.
Qed.

(** What [register] leaves in force, for every descriptor. *)
Lemma register_in_force rs r rs' n :
  register rs r = Ok rs' -> dget rs' n = force_register n r (dget rs n).
Proof.
  unfold register, force_register. intros H.
  assert (Hs : dget (dset rs (r_fd r) r) n
               = if Nat.eqb (r_fd r) n then Some r else dget rs n).
  { rewrite dget_dset. cbn. rewrite (Nat.eqb_sym n). reflexivity. }
  destruct (r_source r); try (injection H as <-; exact Hs).
  destruct (dmem rs (r_fd r)); [|discriminate]. injection H as <-.
  rewrite dget_ddel. cbn. now rewrite (Nat.eqb_sym n).
Qed.

Lemma register_ok rs r : r_source r <> SNone -> register rs r = Ok (dset rs (r_fd r) r).
Proof. unfold register. destruct (r_source r); congruence. Qed.

Lemma register_list_ok l rs :
  Forall (fun r => r_source r <> SNone) l ->
  exists rs', register_list rs l = Ok rs' /\
    rs' = fold_left (fun d r => dset d (r_fd r) r) l rs.
Proof.
  revert rs. induction l as [|r l IH]; cbn; intros rs H; [eauto|].
  inversion H as [|? ? Hr Hl]; subst. rewrite register_ok by assumption. cbn. apply IH, Hl.
Qed.

Lemma wf_vals rs : wf_redirects rs -> Forall (fun r => r_source r <> SNone) (dvals rs).
Proof.
  intros [_ H]. unfold dvals. apply Forall_forall. intros r Hr.
  apply in_map_iff in Hr as [x [<- Hx]]. rewrite Forall_forall in H. now apply H.
Qed.

(** Registering the values of a well formed set. *)
Lemma fold_dset_get (other : redirects) rs n :
  wf_redirects other ->
  dget (fold_left (fun d r => dset d (r_fd r) r) (dvals other) rs) n
  = match dget other n with Some r => Some r | None => dget rs n end.
Proof.
  intros [Hnd Hall]. revert rs.
  induction other as [|[k r] other IH]; cbn; intros rs; [reflexivity|].
  inversion Hnd as [|? ? Hn Hd]; subst. inversion Hall as [|? ? [Hk Hs] Hl]; subst.
  cbn in Hk, Hs. subst k. fold (dvals other). rewrite IH by assumption.
  destruct (Nat.eqb_spec n (r_fd r)) as [->|Hne].
  - assert (E : dget other (r_fd r) = None) by (apply dget_None; exact Hn).
    rewrite E, dget_dset. cbn. now rewrite Nat.eqb_refl.
  - destruct (dget other n); [reflexivity|]. rewrite dget_dset. cbn.
    destruct (Nat.eqb_spec n (r_fd r)); congruence.
Qed.

Lemma register_all_in_force rs other rs' n :
  wf_redirects other -> register_all rs other = Ok rs' ->
  dget rs' n = force_set n other (dget rs n).
Proof.
  intros Hwf H. unfold register_all in H.
  destruct (register_list_ok (dvals other) rs (wf_vals _ Hwf)) as [rs1 [E1 E2]].
  rewrite E1 in H. injection H as <-. rewrite E2. apply fold_dset_get, Hwf.
Qed.
Lemma register_all_total rs other :
  wf_redirects other -> exists rs', register_all rs other = Ok rs'.
Proof.
  intros Hwf. destruct (register_list_ok (dvals other) rs (wf_vals _ Hwf)) as [rs1 [E1 _]]. eauto.
Qed.

(** Copying a set ([Redirects(rs)]) gives the same set, in the same order. *)
Lemma fold_dset_app (other rs : redirects) :
  wf_redirects other -> (forall k, In k (dkeys other) -> dget rs k = None) ->
  fold_left (fun d r => dset d (r_fd r) r) (dvals other) rs = rs ++ other.
Proof.
  intros [Hnd Hall]. revert rs.
  induction other as [|[k r] other IH]; cbn; intros rs Hf; [now rewrite app_nil_r|].
  inversion Hnd as [|? ? Hn Hd]; subst. inversion Hall as [|? ? [Hk Hs] Hl]; subst.
  cbn in Hk, Hs. subst k. fold (dvals other).
  rewrite (dset_fresh rs) by (apply Hf; auto). rewrite IH; auto.
  - rewrite <- app_assoc. reflexivity.
  - intros k Hk. rewrite <- dset_fresh by (apply Hf; auto). rewrite dget_dset.
    rewrite keqb_neq; [apply Hf; auto|]. intros ->. contradiction.
Qed.
Lemma copy_redirects rs : wf_redirects rs -> new_redirects [IRedirects rs] = Ok rs.
Proof.
  intros Hwf. unfold new_redirects. cbn. unfold register_all.
  destruct (register_list_ok (dvals rs) [] (wf_vals _ Hwf)) as [rs1 [E1 E2]].
  rewrite E1. cbn. rewrite E2. rewrite fold_dset_app; auto.
Qed.

Lemma merge_total a b :
  wf_redirects a -> wf_redirects b -> exists c, merge a b = Ok c.
Proof.
  intros Ha Hb. unfold merge, new_redirects. cbn.
  destruct (register_all_total [] a Ha) as [a' Ea]. rewrite Ea. cbn.
  destruct (register_all_total a' b Hb) as [c Ec]. rewrite Ec. cbn. eauto.
Qed.
Lemma merge_in_force a b c n :
  wf_redirects a -> wf_redirects b -> merge a b = Ok c ->
  dget c n = force_set n b (dget a n).
Proof.
  intros Ha Hb H. unfold merge, new_redirects in H. cbn in H.
  destruct (register_all [] a) as [a'|] eqn:Ea; [|discriminate]. cbn in H.
  destruct (register_all a' b) as [c'|] eqn:Ec; [|discriminate]. cbn in H. injection H as <-.
  rewrite (register_all_in_force _ _ _ n Hb Ec), (register_all_in_force _ _ _ n Ha Ea).
  unfold force_set. cbn. destruct (dget b n); [reflexivity|]. destruct (dget a n); reflexivity.
Qed.

Lemma borrow_in_force rs n : dget (borrow rs) n = option_map borrow1 (dget rs n).
Proof.
  unfold borrow. induction rs as [|[k r] rs IH]; cbn; [reflexivity|].
  destruct (Nat.eqb n k); [reflexivity|exact IH].
Qed.

Lemma apply_op_in_force rs o rs' n :
  wf_redirects rs -> op_wf o -> apply_op rs o = Ok rs' ->
  wf_redirects rs' /\ dget rs' n = in_force n (dget rs n) o.
Proof.
  intros Hwf Ho H. destruct o as [r|o|o|]; cbn in *.
  - split; [eapply wf_register; eauto|now apply register_in_force].
  - split; [eapply wf_register_list; [exact Hwf|exact H]|now apply register_all_in_force].
  - split; [exact (wf_new [IRedirects rs; IRedirects o] rs' H)|now apply merge_in_force].
  - injection H as <-. split; [now apply wf_borrow|apply borrow_in_force].
Qed.

Lemma apply_ops_in_force os rs rs' n :
  wf_redirects rs -> Forall op_wf os -> apply_ops rs os = Ok rs' ->
  wf_redirects rs' /\ dget rs' n = fold_left (in_force n) os (dget rs n).
Proof.
  revert rs. induction os as [|o os IH]; cbn; intros rs Hwf Hos H.
  - injection H as <-. auto.
  - inversion Hos as [|? ? Ho Hos']; subst.
    destruct (apply_op rs o) as [rs1|] eqn:E; [|discriminate]. cbn in H.
    destruct (apply_op_in_force rs o rs1 n Hwf Ho E) as [Hwf1 E1].
    destruct (IH rs1 Hwf1 Hos' H) as [Hwf2 E2]. split; [exact Hwf2|]. now rewrite E2, E1.
Qed.

(** An operation fails exactly when it removes an absent redirect, with KeyError. *)
Lemma apply_op_fails rs o e :
  wf_redirects rs -> op_wf o ->
  (apply_op rs o = Err e <->
   e = KeyError /\ exists r, o = OpRegister r /\ r_source r = SNone /\ dget rs (r_fd r) = None).
Proof.
  intros Hwf Ho. destruct o as [r|o|o|]; cbn in *.
  - unfold register, dmem. split.
    + destruct (r_source r) eqn:E; try discriminate.
      destruct (dget rs (r_fd r)) eqn:G; try discriminate.
      intros H. injection H as <-. split; [reflexivity|]. exists r. auto.
    + intros [-> [r' [Hr [Hs Hg]]]]. injection Hr as <-. now rewrite Hs, Hg.
  - destruct (register_all_total rs o Ho) as [x Ex]. rewrite Ex.
    split; [discriminate|]. intros [_ [r [Hr _]]]. discriminate.
  - destruct (merge_total rs o Hwf Ho) as [x Ex]. rewrite Ex.
    split; [discriminate|]. intros [_ [r [Hr _]]]. discriminate.
  - split; [discriminate|]. intros [_ [r [Hr _]]]. discriminate.
Qed.

(** ** find_free_fd *)
Lemma list_max_ge l x : In x l -> x <= list_max l.
Proof.
  intros H. pose proof (proj1 (list_max_le l (list_max l)) (le_n _)) as HF.
  rewrite Forall_forall in HF. now apply HF.
Qed.
Lemma find_free_fd_above rs :
  2 < find_free_fd rs /\
  (forall k r, In (k, r) rs -> r_fd r < find_free_fd rs) /\
  (forall k r n, In (k, r) rs -> r_source r = SInt n -> n < find_free_fd rs).
Proof.
  unfold find_free_fd. repeat split.
  - assert (2 <= list_max (map r_fd (dvals rs) ++ source_ints rs ++ [2])); [|lia].
    apply list_max_ge. rewrite !in_app_iff. cbn. auto.
  - intros k r H. assert (r_fd r <= list_max (map r_fd (dvals rs) ++ source_ints rs ++ [2])); [|lia].
    apply list_max_ge, in_app_iff. left. apply in_map. unfold dvals.
    apply in_map_iff. now exists (k, r).
  - intros k r n H Hs. assert (n <= list_max (map r_fd (dvals rs) ++ source_ints rs ++ [2])); [|lia].
    apply list_max_ge. rewrite !in_app_iff. right. left. unfold source_ints.
    apply in_flat_map. exists r. split; [|rewrite Hs; cbn; auto].
    apply in_map_iff. now exists (k, r).
Qed.
(** ... and it is the least such number, so descriptors do not drift upwards. *)
Lemma find_free_fd_least rs m :
  2 < m ->
  (forall k r, In (k, r) rs -> r_fd r < m) ->
  (forall k r n, In (k, r) rs -> r_source r = SInt n -> n < m) ->
  find_free_fd rs <= m.
Proof.
  intros H2 Hf Hs. unfold find_free_fd.
  assert (list_max (map r_fd (dvals rs) ++ source_ints rs ++ [2]) <= m - 1); [|lia].
  apply list_max_le. rewrite Forall_forall. intros x. rewrite !in_app_iff.
  intros [Hx|[Hx|[<-|[]]]]; [| |lia].
  - apply in_map_iff in Hx as [r [<- Hr]]. apply in_map_iff in Hr as [[k r'] [<- Hr]].
    apply Hf in Hr. cbn. lia.
  - apply in_flat_map in Hx as [r [Hr Hx]]. apply in_map_iff in Hr as [[k r'] [<- Hr]]. cbn in Hx.
    destruct (r_source r') eqn:E; cbn in Hx; try tauto. destruct Hx as [<-|[]].
    apply (Hs _ _ _ Hr) in E. lia.
Qed.
