(** Equivalent ways of writing a pipeline. *)
From Verif Require Import Py RedirModel RedirSpec Os PerformModel PerformSpec RunModel RunSpec
  RunTopSpec RunMain RunFinal RunSameSpec.

Lemma args_alike L logfd maxfd rs1 t1 rs2 t2 ws : forall argv1 argv2,
  Forall2 (arg_connected (program_fd L logfd maxfd rs1 t1)) ws argv1 ->
  Forall2 (arg_connected (program_fd L logfd maxfd rs2 t2)) ws argv2 ->
  Forall2 (arg_alike (program_fd L logfd maxfd rs1 t1) (program_fd L logfd maxfd rs2 t2)) argv1 argv2.
Proof.
  intros argv1 argv2 H. revert argv2. induction H as [|w a ws argv1 A _ IH]; intros argv2 H2; inversion H2; subst; constructor; auto.
  destruct w, a, y; cbn in *; try contradiction; try congruence. destruct A as [_ A]. destruct H1 as [_ B]. rewrite A, B. split; congruence.
Qed.
Lemma connected_alike L logfd maxfd sh1 sh2 lf x y :
  connected L logfd maxfd sh1 lf x -> connected L logfd maxfd sh2 lf y -> alike L logfd maxfd sh1 sh2 x y.
Proof.
  intros C1 C2. destruct lf as [io ws|inp out], x as [rs1 t1 v1|i1 o1 r1], y as [rs2 t2 v2|i2 o2 r2]; cbn in *; try contradiction.
  - intros R1 R2 F1 F2. destruct (C1 R1 F1) as (_ & _ & A1 & B1). destruct (C2 R2 F2) as (_ & _ & A2 & B2).
    split; [eapply args_alike; eauto|]. intros n Ln Nn N1 N2. now rewrite B1, B2.
  - destruct C1 as [A1 B1], C2 as [A2 B2]. split; [|congruence].
    destruct inp, i1, i2; try contradiction; auto. split; congruence.
Qed.
Lemma Forall2_alike L logfd maxfd sh1 sh2 ls : forall xs ys,
  Forall2 (connected L logfd maxfd sh1) ls xs -> Forall2 (connected L logfd maxfd sh2) ls ys ->
  Forall2 (alike L logfd maxfd sh1 sh2) xs ys.
Proof.
  intros xs ys H. revert ys. induction H as [|l x ls xs C _ IH]; intros ys H2; inversion H2; subst; constructor; auto.
  eapply connected_alike; eauto.
Qed.
(** Same wiring, both clean: same pipeline. *)
Lemma wire_same L pf piped p q s o0 o1 logfd maxfd :
  refers (s_tab s) 0 = Some o0 -> refers (s_tab s) 1 = Some o1 -> tget (s_tab s) 2 <> None ->
  clean (can_open L) INone piped p -> clean (can_open L) INone piped q ->
  wire p (top_env o0 o1 piped) (s_np s) (s_nt s) = wire q (top_env o0 o1 piped) (s_np s) (s_nt s) ->
  same_pipeline L pf piped p q s logfd maxfd.
Proof.
  intros H0 H1 H2 C1 C2 W. unfold same_pipeline.
  pose proof (start_correct L pf piped p s o0 o1 logfd maxfd H0 H1 H2 C1) as S1.
  pose proof (start_correct L pf piped q s o0 o1 logfd maxfd H0 H1 H2 C2) as S2.
  destruct (start L pf piped p s) as [s1 [[r1 its1]|e1] ], (start L pf piped q s) as [s2 [[r2 its2]|e2] ]; auto.
  cbn zeta in *. rewrite W in S1. destruct S1 as (F1 & P1 & _). destruct S2 as (F2 & P2 & _).
  split; [eapply Forall2_alike; eauto|]. intros ->. destruct P1 as (x1 & k1 & A1 & B1 & D1). destruct P2 as (x2 & k2 & A2 & B2 & D2).
  exists x1, x2, k1. repeat split; auto. congruence.
Qed.

Lemma dset_dset {V} (d : dict nat V) k v w : dset (dset d k v) k w = dset d k w.
Proof.
  induction d as [|[k0 v0] d IH]; cbn [dset]; [now rewrite keqb_refl|]. destruct (keqb k k0) eqn:E; cbn [dset]; [now rewrite keqb_refl|].
  rewrite E. now rewrite IH.
Qed.
Lemma dset_comm {V} (d : dict nat V) k1 k2 v1 v2 : k1 <> k2 -> dmem d k1 = true ->
  dset (dset d k1 v1) k2 v2 = dset (dset d k2 v2) k1 v1.
Proof.
  intros N. unfold dmem. induction d as [|[k0 v0] d IH]; cbn [dget dset]; [discriminate|].
  destruct (keqb_spec k1 k0) as [->|N1], (keqb_spec k2 k0) as [->|N2]; try congruence.
  - intros _. cbn [dset]. rewrite (keqb_neq k2 k0) by congruence. rewrite keqb_refl. reflexivity.
  - intros H. cbn [dset]. rewrite (keqb_neq k1 k0) by congruence. rewrite keqb_refl. reflexivity.
  - intros H1. cbn [dset]. rewrite (keqb_neq k2 k0), (keqb_neq k1 k0) by congruence. now rewrite IH.
Qed.
Definition has01 (e : wenv) : Prop := dmem e 0 = true /\ dmem e 1 = true /\ dmem e 2 = true.
Lemma top_has01 o0 o1 piped : has01 (top_env o0 o1 piped).
Proof. destruct piped; repeat split; reflexivity. Qed.
Lemma ask_feed e k : has01 e -> ask_stdout (feed_stdin e k) = feed_stdin (ask_stdout e) k.
Proof. intros (H0 & H1 & _). unfold feed_stdin, ask_stdout. now apply dset_comm. Qed.
Lemma feed_feed e j k : feed_stdin (feed_stdin e j) k = feed_stdin e k.
Proof. unfold feed_stdin. apply dset_dset. Qed.
Lemma ask_ask e : ask_stdout (ask_stdout e) = ask_stdout e.
Proof. unfold ask_stdout. apply dset_dset. Qed.
Lemma wire_assoc a b c e np nt : has01 e ->
  wire (PPipe (PPipe a b) c) e np nt = wire (PPipe a (PPipe b c)) e np nt.
Proof.
  intros HE. cbn [wire]. rewrite ask_ask.
  destruct (wire a (ask_stdout e) np nt) as [la ia [k|] np1 nt1] eqn:A; cbn [w_out w_in w_leaves w_np w_nt]; [|reflexivity].
  rewrite <- ask_feed by auto.
  destruct (wire b (ask_stdout (feed_stdin e k)) np1 nt1) as [lb ib [k2|] np2 nt2] eqn:B; cbn [w_out w_in w_leaves w_np w_nt]; [|reflexivity].
  rewrite feed_feed. now rewrite app_assoc.
Qed.

Lemma dmem_dset {V} (d : dict nat V) k k' v : dmem d k = true -> dmem (dset d k' v) k = true.
Proof.
  unfold dmem. induction d as [|[k0 v0] d IH]; cbn [dget dset]; [discriminate|].
  destruct (keqb_spec k' k0) as [->|N]; cbn [dget]; destruct (keqb_spec k k0) as [->|N2]; auto.
Qed.
Lemma has01_dset e k v : has01 e -> has01 (dset e k v).
Proof. intros (A & B & C). repeat split; now apply dmem_dset. Qed.
Lemma override_first l : forall e, has01 e ->
  ask_stdout (override e l) = override (ask_stdout e) (filter (fun r => negb (Nat.eqb (r_fd r) 1)) l).
Proof.
  induction l as [|r l IH]; intros e H; cbn [override filter]; [reflexivity|]. rewrite IH by now apply has01_dset.
  destruct (Nat.eqb_spec (r_fd r) 1) as [E|N]; cbn [negb override]; f_equal.
  - rewrite E. unfold ask_stdout. apply dset_dset.
  - unfold ask_stdout. symmetry. apply dset_comm; [auto|apply H].
Qed.
Lemma override_last l : forall e k, has01 e ->
  feed_stdin (override e l) k = override (feed_stdin e k) (filter (fun r => negb (Nat.eqb (r_fd r) 0)) l).
Proof.
  induction l as [|r l IH]; intros e k H; cbn [override filter]; [reflexivity|]. rewrite IH by now apply has01_dset.
  destruct (Nat.eqb_spec (r_fd r) 0) as [E|N]; cbn [negb override]; f_equal.
  - rewrite E. unfold feed_stdin. apply dset_dset.
  - unfold feed_stdin. symmetry. apply dset_comm; [auto|apply H].
Qed.
Lemma dvals_filter (f : redirect -> bool) (d : redirects) :
  dvals (filter (fun kr => f (snd kr)) d) = filter f (dvals d).
Proof. induction d as [|[k r] d IH]; cbn; [reflexivity|]. destruct (f r); cbn; [f_equal|]; exact IH. Qed.
Lemma wire_redirected_pipe a b crs e np nt : has01 e ->
  wire (PRedir (PPipe a b) crs) e np nt = wire (PPipe (PRedir a (for_first crs)) (PRedir b (for_last crs))) e np nt.
Proof.
  intros H. cbn [wire]. unfold for_first, for_last.
  rewrite (dvals_filter (fun r => negb (Nat.eqb (r_fd r) 1))), (dvals_filter (fun r => negb (Nat.eqb (r_fd r) 0))).
  rewrite <- override_first by auto.
  destruct (w_out (wire a (ask_stdout (override e (dvals crs))) np nt)) as [k|]; [|reflexivity].
  now rewrite <- override_last.
Qed.
Lemma wire_redirected_group a b crs e np nt :
  wire (PRedir (PGroup a b) crs) e np nt = wire (PGroup (PRedir a crs) (PRedir b crs)) e np nt.
Proof. reflexivity. Qed.
Lemma wire_redirected_twice a crs crs2 e np nt :
  wire (PRedir (PRedir a crs) crs2) e np nt = wire (PRedir a (crs2 ++ crs)) e np nt.
Proof.
  cbn [wire]. f_equal. unfold dvals. rewrite map_app. generalize (map snd crs2), (map snd crs). intros l1 l2. revert e.
  induction l1 as [|r l IH]; intros e; cbn; auto.
Qed.

Lemma redirect_clean_none can i o kr : redirect_clean can i o kr -> redirect_clean can INone o kr.
Proof. intros (A & B & C). split; auto. Qed.
Lemma clean_none can : forall p o, clean can IPiped o p -> clean can INone o p.
Proof.
  induction p as [args|inp|a IHa b IHb|a IHa b IHb|q IH crs|]; intros o; cbn [clean]; auto.
  - intros (A & B & C & D). repeat split; auto. discriminate.
  - intros (A & B & C). split; [exact A|]. split; [|auto]. eapply Forall_impl; [|exact B]. intros kr. apply redirect_clean_none.
Qed.
Lemma clean_assoc can o a b c : clean can INone o (PPipe (PPipe a b) c) -> clean can INone o (PPipe a (PPipe b c)).
Proof. cbn [clean]. intros ((A & B) & C). repeat split; auto. now apply clean_none. Qed.
Lemma pipe_assoc L pf piped a b c s o0 o1 logfd maxfd :
  refers (s_tab s) 0 = Some o0 -> refers (s_tab s) 1 = Some o1 -> tget (s_tab s) 2 <> None ->
  clean (can_open L) INone piped (PPipe (PPipe a b) c) ->
  same_pipeline L pf piped (PPipe (PPipe a b) c) (PPipe a (PPipe b c)) s logfd maxfd.
Proof.
  intros H0 H1 H2 C. eapply wire_same; eauto; [now apply clean_assoc|]. apply wire_assoc, top_has01.
Qed.
Lemma dset_filter_wf (f : redirect -> bool) (crs : redirects) : wf_redirects crs -> wf_redirects (filter (fun kr => f (snd kr)) crs).
Proof.
  intros [A B]. split.
  - revert A. unfold dkeys. induction crs as [|[k r] d IH]; cbn; [auto|]. intros N. inversion N; subst. inversion B; subst.
    destruct (f r); cbn; auto. constructor; auto. intros I. apply H1. apply in_map_iff in I as (x & E & I). apply filter_In in I as [I _].
    apply in_map_iff. now exists x.
  - rewrite Forall_forall in *. intros x I. apply filter_In in I as [I _]. now apply B.
Qed.
Lemma pipe_redirect L pf piped a b crs s o0 o1 logfd maxfd :
  refers (s_tab s) 0 = Some o0 -> refers (s_tab s) 1 = Some o1 -> tget (s_tab s) 2 <> None ->
  clean (can_open L) INone piped (PRedir (PPipe a b) crs) ->
  same_pipeline L pf piped (PRedir (PPipe a b) crs) (PPipe (PRedir a (for_first crs)) (PRedir b (for_last crs))) s logfd maxfd.
Proof.
  intros H0 H1 H2 C. eapply wire_same; eauto; [|apply wire_redirected_pipe, top_has01].
  cbn [clean] in *. destruct C as (W & F & A & B).
  split; (split; [unfold for_first, for_last;
    (apply (dset_filter_wf (fun r => negb (Nat.eqb (r_fd r) 1))) || apply (dset_filter_wf (fun r => negb (Nat.eqb (r_fd r) 0)))); exact W|split; [|assumption]]);
  rewrite Forall_forall in *; intros x I; apply filter_In in I as [I E]; destruct (F _ I) as (X & Y & Z);
  apply negb_true_iff, Nat.eqb_neq in E; repeat split; auto; congruence.
Qed.
Lemma group_redirect L pf a b crs s o0 o1 logfd maxfd :
  refers (s_tab s) 0 = Some o0 -> refers (s_tab s) 1 = Some o1 -> tget (s_tab s) 2 <> None ->
  clean (can_open L) INone false (PRedir (PGroup a b) crs) ->
  same_pipeline L pf false (PRedir (PGroup a b) crs) (PGroup (PRedir a crs) (PRedir b crs)) s logfd maxfd.
Proof.
  intros H0 H1 H2 C. eapply wire_same; eauto. cbn [clean] in *. intuition.
Qed.
Lemma wire_group_assoc a b c e np nt :
  wire (PGroup (PGroup a b) c) e np nt = wire (PGroup a (PGroup b c)) e np nt.
Proof. cbn [wire w_leaves w_np w_nt]. now rewrite app_assoc. Qed.
Lemma group_assoc L pf a b c s o0 o1 logfd maxfd :
  refers (s_tab s) 0 = Some o0 -> refers (s_tab s) 1 = Some o1 -> tget (s_tab s) 2 <> None ->
  clean (can_open L) INone false (PGroup (PGroup a b) c) ->
  same_pipeline L pf false (PGroup (PGroup a b) c) (PGroup a (PGroup b c)) s logfd maxfd.
Proof.
  intros H0 H1 H2 C. eapply wire_same; eauto; [|apply wire_group_assoc]. cbn [clean] in *. intuition; discriminate.
Qed.
(** Redirecting a redirected command: the inner redirect stays in force. *)
Lemma override_again r g e : r_fd r = r_fd g -> override (override e [g]) [r] = override e [r].
Proof. intros E. cbn [override]. rewrite <- E. apply dset_dset. Qed.
Lemma redirect_twice L pf piped a kr kg r g s o0 o1 logfd maxfd :
  refers (s_tab s) 0 = Some o0 -> refers (s_tab s) 1 = Some o1 -> tget (s_tab s) 2 <> None ->
  r_fd r = r_fd g ->
  clean (can_open L) INone piped (PRedir (PRedir a [(kr, r)]) [(kg, g)]) ->
  same_pipeline L pf piped (PRedir (PRedir a [(kr, r)]) [(kg, g)]) (PRedir a [(kr, r)]) s logfd maxfd.
Proof.
  intros H0 H1 H2 E C. eapply wire_same; eauto; [exact (proj2 (proj2 C))|]. cbn [wire dvals map snd].
  now rewrite override_again.
Qed.
