(** Lemmas for C114: what is started with the redirects of an environment. *)
From Verif Require Import Py RedirModel RedirSpec RedirProofs Os PerformModel PerformSpec PerformProofs
  RunModel RunSpec RunTopSpec RunProofs RunPre RunMake RunMake2 RunMain RunArgs RunTop RunFinal RunMore RunStarted EnvRedirModel EnvRedirSpec.
#[local] Arguments hp : simpl never.
#[local] Arguments rbind : simpl never.
#[local] Arguments rret : simpl never.

Lemma ordinary_register can r rs : ordinary can r -> register rs r = Ok (dset rs (r_fd r) r).
Proof. intros [_ H]. apply register_ok. destruct (r_source r); try contradiction; discriminate. Qed.
Lemma fold_plus can l : Forall (ordinary can) l -> forall rs, fold_left plus l rs = fold_left (fun d r => dset d (r_fd r) r) l rs.
Proof.
  induction 1 as [|r l H _ IH]; intros rs; [reflexivity|]. cbn. rewrite IH. unfold plus. now rewrite (ordinary_register can r rs H).
Qed.
Lemma standard_def : standard = def_rs.
Proof. reflexivity. Qed.

Section S.
  Variable L : limits.
  Variable pf : ofd -> bool.
  Lemma Pre_set_by t o0 o1 l : refers t 0 = Some o0 -> refers t 1 = Some o1 -> tget t 2 <> None -> Forall (ordinary (can_open L)) l ->
    Pre L INone false t (fold_left plus l standard) (override (top_env o0 o1 false) l).
  Proof.
    intros H0 H1 H2 Hl. pose proof (Pre_def L pf t o0 o1 H0 H1 H2) as P.
    pose proof (Pre_override L _ _ _ _ _ (map (fun r => (r_fd r, r)) l) P) as Q. rewrite pairs_dvals in Q. rewrite (fold_plus _ l Hl). apply Q.
    - apply Forall_map. apply Forall_forall. intros r _. reflexivity.
    - apply Forall_map. eapply Forall_impl; [|exact Hl]. intros r [A B]. split; [reflexivity|]. split; [reflexivity|]. cbn. destruct (r_source r); auto.
  Qed.
  Definition set_rs (piped : bool) (l : list redirect) : redirects :=
    if piped then dset (fold_left plus l standard) 1 stdout_pipe else fold_left plus l standard.
  Definition set_env (piped : bool) (o0 o1 : ofd) (l : list redirect) : wenv :=
    if piped then ask_stdout (override (top_env o0 o1 false) l) else override (top_env o0 o1 false) l.
  Lemma Pre_set_top (t : tab) (o0 o1 : ofd) l (piped : bool) : refers t 0 = Some o0 -> refers t 1 = Some o1 -> tget t 2 <> None -> Forall (ordinary (can_open L)) l ->
    Pre L INone piped t (set_rs piped l) (set_env piped o0 o1 l).
  Proof. intros H0 H1 H2 Hl. pose proof (Pre_set_by t o0 o1 l H0 H1 H2 Hl) as P. destruct piped; [|exact P]. exact (Pre_ask1 L _ _ _ _ _ P). Qed.
  Lemma run_top_set (piped : bool) l p s (t : tab) (o0 o1 : ofd) : refers t 0 = Some o0 -> refers t 1 = Some o1 -> tget t 2 <> None -> Forall (ordinary (can_open L)) l ->
    run_top L pf (fold_left plus l standard) (if piped then [stdout_pipe] else []) p s = run L pf p (set_rs piped l) s.
  Proof.
    intros H0 H1 H2 Hl. pose proof (Pre_set_by t o0 o1 l H0 H1 H2 Hl) as P. pose proof (pre_wf _ _ _ _ _ _ P) as W.
    unfold run_top. pose proof (copy_redirects _ W) as C. unfold new_redirects in *. unfold set_rs. destruct piped; cbn in C |- *.
    - destruct (register_all [] (fold_left plus l standard)) as [x|] eqn:E; cbn in C; [|discriminate]. injection C as ->. cbn. reflexivity.
    - destruct (register_all [] (fold_left plus l standard)) as [x|] eqn:E; cbn in C; [|discriminate]. injection C as ->. cbn. reflexivity.
  Qed.
  Lemma nbs_set (piped : bool) l (t : tab) (o0 o1 : ofd) : refers t 0 = Some o0 -> refers t 1 = Some o1 -> tget t 2 <> None -> Forall (ordinary (can_open L)) l -> nbs (dvals (set_rs piped l)) = [].
  Proof.
    intros H0 H1 H2 Hl. pose proof (Pre_set_top t o0 o1 l piped H0 H1 H2 Hl) as P.
    assert (G : forall r, In r (dvals (set_rs piped l)) -> match r_source r with SInt _ => r_borrowed r = true | _ => True end).
    { intros r Hr. apply in_map_iff in Hr as ([k x] & E & Hin). cbn in E. subst x. pose proof (pre_ent _ _ _ _ _ _ P k r Hin) as En. unfold entry_ok in En.
      destruct (r_source r); auto. destruct En as [_ B]. destruct (r_borrowed r); [reflexivity|]. destruct (B eq_refl) as [_ X]. discriminate. }
    revert G. generalize (dvals (set_rs piped l)). induction l0 as [|r rs IH]; intros G; [reflexivity|].
    pose proof (G r (or_introl eq_refl)) as Gr. specialize (IH (fun x Hx => G x (or_intror Hx))). unfold nbs in *. cbn. destruct (r_source r); try exact IH. rewrite Gr. cbn. exact IH.
  Qed.
  Theorem run_set_correct (piped : bool) l p s o0 o1 logfd maxfd :
    refers (s_tab s) 0 = Some o0 -> refers (s_tab s) 1 = Some o1 -> tget (s_tab s) 2 <> None -> Forall (ordinary (can_open L)) l ->
    clean (can_open L) INone piped p ->
    match run_top L pf (fold_left plus l standard) (if piped then [stdout_pipe] else []) p s with
    | (_, Err e) => errs e
    | (s', Ok (ret, its)) =>
        let W := wire p (set_env piped o0 o1 l) (s_np s) (s_nt s) in
        Forall2 (connected L logfd maxfd (s_tab s')) (w_leaves W) its /\
        (if piped then exists x k, caller_fds ret = [x] /\ w_out W = Some k /\ refers (s_tab s') x = Some (OPipeR k)
         else w_out W = None) /\
        (let own := (if piped then caller_fds ret else []) ++ function_fds its in
         NoDup own /\ (forall n, In n own -> tget (s_tab s) n = None) /\
         (forall n, ~ In n own -> tget (s_tab s') n = tget (s_tab s) n))
    end.
  Proof.
    intros H0 H1 H2 Hl Hc. rewrite (run_top_set piped l p s _ _ _ H0 H1 H2 Hl).
    pose proof (run_hp L pf p INone piped s _ _ (Pre_set_top _ _ _ l piped H0 H1 H2 Hl) Hc) as H. unfold hp in H.
    destruct (run L pf p (set_rs piped l) s) as [s' [[ret its]|e]]; [|exact H].
    destruct H as [rs' [E [Hw [_ [_ [Hnp [Hnt [Hit [Hret Hpt]]]]]]]]]. cbn [fst snd] in *. subst ret.
    rewrite (nbs_set piped l _ _ _ H0 H1 H2 Hl) in Hpt. apply postt_ext in Hpt; [|intros n []].
    split; [|split].
    - clear -Hit. induction Hit as [|lf it ls its Hi Hl IH]; constructor; [|exact IH]. now apply item_connected.
    - destruct piped; [|apply Hret]. destruct (ret_fds_out _ _ _ _ Hret) as [k [r [x [Ek [Er [Ep [Et Ef]]]]]]].
      exists x, k. split; [cbn; now rewrite Er, Ep|]. split; [exact Ek|]. unfold refers. now rewrite Et.
    - assert (E : ret_fds INone piped rs' ++ items_fds its = (if piped then caller_fds (Some rs') else []) ++ function_fds its).
      { f_equal. destruct piped; [|reflexivity]. unfold ret_fds, reqs. cbn. apply app_nil_r. }
      rewrite <- E. destruct Hpt as [A [B C]]. split; [exact A|]. split; [intros n Hn; now apply B|exact C].
  Qed.
End S.

(** ** Three wishes *)
Definition E3 (a b c : want * N) : wenv := [(0, a); (1, b); (2, c)].
Definition upd (n : nat) (l : list redirect) (a : want * N) : want * N := match last_for n l with Some r => wish r | None => a end.
Lemma last_for_snoc n l r : last_for n (l ++ [r]) = if Nat.eqb (r_fd r) n then Some r else last_for n l.
Proof. unfold last_for. now rewrite fold_left_app. Qed.
Lemma override_snoc l r : forall e, override e (l ++ [r]) = dset (override e l) (r_fd r) (wish r).
Proof. induction l as [|x l IH]; intros e; cbn; [reflexivity|apply IH]. Qed.
Lemma override_E3 a b c l : Forall (fun r => r_fd r <= 2) l -> override (E3 a b c) l = E3 (upd 0 l a) (upd 1 l b) (upd 2 l c).
Proof.
  induction l as [|r l IH] using rev_ind; intros F; [reflexivity|]. apply Forall_app in F as [F1 F2]. inversion F2 as [|? ? Hr _]; subst.
  rewrite override_snoc, IH by exact F1. unfold upd. rewrite !last_for_snoc. destruct (r_fd r) as [|[|[|n]]]; cbn; try lia; reflexivity.
Qed.
Definition nopipe (w : want * N) : Prop := fst w <> WPipe.
Definition fits (w : want * N) (o : option ofd) : Prop :=
  match fst w with WOfd x => o = Some x | WPath p => o = Some (OFile p (snd w)) | WTmp => exists k, o = Some (OTmp k) | WPipe => False end.
Lemma wire_e3_pipe a c ws np nt : nopipe a -> nopipe c -> exists io nt',
  wire (PCmd (map AWord ws)) (E3 a (WPipe, out_flags) c) np nt = mkWired [LProc io (map WWord ws)] None (Some np) (S np) nt' /\
  fits a (io 0) /\ io 1 = Some (OPipeW np) /\ fits c (io 2) /\ forall m, 2 < m -> io m = None.
Proof.
  intros Ha Hc. rewrite wire_PCmd. destruct a as [[x|p| |] fa], c as [[y|q| |] fc]; try (now elim Ha); try (now elim Hc); cbn [make E3]; rewrite wire_args_words; cbn;
    (eexists; eexists; split; [reflexivity|]); unfold io_of, fits; cbn; repeat split; eauto;
    intros [|[|[|m]]] Hm; try lia; reflexivity.
Qed.
Lemma wire_e3_plain a b c ws np nt : nopipe a -> nopipe b -> nopipe c -> exists io nt',
  wire (PCmd (map AWord ws)) (E3 a b c) np nt = mkWired [LProc io (map WWord ws)] None None np nt' /\
  fits a (io 0) /\ fits b (io 1) /\ fits c (io 2) /\ forall m, 2 < m -> io m = None.
Proof.
  intros Ha Hb Hc. rewrite wire_PCmd.
  destruct a as [[x|p| |] fa], b as [[z|r| |] fb], c as [[y|q| |] fc]; try (now elim Ha); try (now elim Hb); try (now elim Hc); cbn [make E3]; rewrite wire_args_words; cbn;
    (eexists; eexists; split; [reflexivity|]); unfold io_of, fits; cbn; repeat split; eauto;
    intros [|[|[|m]]] Hm; try lia; reflexivity.
Qed.
Definition link (a : want * N) (np i : nat) (o : option ofd) : Prop := match i with 0 => fits a o | S j => o = Some (OPipeR (np + j)) end.
Lemma wire_chain3 a c w ws np nt : nopipe a -> nopipe c -> forall cs,
  (let W := wire (chain ws cs) (E3 a (WPipe, out_flags) c) np nt in
   w_out W = Some (np + List.length cs) /\ w_np W = np + S (List.length cs) /\
   List.length (w_leaves W) = S (List.length cs) /\
   forall i x, nth_error (ws :: cs) i = Some x -> exists io, nth_error (w_leaves W) i = Some (LProc io (map WWord x)) /\
     link a np i (io 0) /\ io 1 = Some (OPipeW (np + i)) /\ fits c (io 2) /\ forall m, 2 < m -> io m = None) /\
  (nopipe w -> let W := wire (chain ws cs) (E3 a w c) np nt in
   List.length (w_leaves W) = S (List.length cs) /\ w_out W = None /\
   forall i x, nth_error (ws :: cs) i = Some x -> exists io, nth_error (w_leaves W) i = Some (LProc io (map WWord x)) /\
     link a np i (io 0) /\ (if Nat.eqb i (List.length cs) then fits w (io 1) else io 1 = Some (OPipeW (np + i))) /\ fits c (io 2) /\ forall m, 2 < m -> io m = None).
Proof.
  intros Ha Hc. induction cs as [|d cs [IH1 _]] using rev_ind.
  { split; [|intros Hw]; cbv zeta; unfold chain, chain_from.
    - destruct (wire_e3_pipe a c ws np nt Ha Hc) as (io & nt' & E & A & B & C & D). rewrite E. cbn. repeat split; try (f_equal; lia); try lia.
      intros [|i] x Ex; [|destruct i; discriminate]. injection Ex as <-. exists io. rewrite Nat.add_0_r. repeat split; auto.
    - destruct (wire_e3_plain a w c ws np nt Ha Hw Hc) as (io & nt' & E & A & B & C & D). rewrite E. cbn. repeat split.
      intros [|i] x Ex; [|destruct i; discriminate]. injection Ex as <-. exists io. repeat split; auto. }
  cbv zeta in IH1. destruct IH1 as [Hout [Hnp [Hlen Hl]]].
  assert (Split : forall i x, nth_error (ws :: cs ++ [d]) i = Some x ->
     (i < S (List.length cs) /\ nth_error (ws :: cs) i = Some x) \/ (i = S (List.length cs) /\ x = d)).
  { intros i x E. change (ws :: cs ++ [d]) with ((ws :: cs) ++ [d]) in E.
    destruct (Nat.lt_ge_cases i (S (List.length cs))) as [H|H].
    - left. split; [exact H|]. rewrite nth_error_app1 in E; [exact E|exact H].
    - right. rewrite nth_error_app2 in E by exact H. cbn [List.length] in E.
      destruct (i - S (List.length cs)) as [|j] eqn:Ei; cbn in E.
      + injection E as <-. split; [lia|reflexivity].
      + destruct j; discriminate. }
  assert (Hf : nopipe (WOfd (OPipeR (np + List.length cs)), O_RDONLY)) by discriminate.
  split; [|intros Hw]; cbv zeta; rewrite chain_snoc, wire_PPipe; cbv zeta.
  - change (ask_stdout (E3 a (WPipe, out_flags) c)) with (E3 a (WPipe, out_flags) c). rewrite Hout.
    change (feed_stdin (E3 a (WPipe, out_flags) c) (np + List.length cs)) with (E3 (WOfd (OPipeR (np + List.length cs)), O_RDONLY) (WPipe, out_flags) c).
    destruct (wire_e3_pipe _ c d (w_np (wire (chain ws cs) (E3 a (WPipe, out_flags) c) np nt)) (w_nt (wire (chain ws cs) (E3 a (WPipe, out_flags) c) np nt)) Hf Hc) as (io & nt' & E & A & B & C & D).
    rewrite E. cbn [w_leaves w_out w_np w_nt]. rewrite !app_length, Hnp. cbn [List.length].
    split; [f_equal; lia|]. split; [lia|]. split; [lia|].
    intros i x Ex. destruct (Split i x Ex) as [[Hi Hx]|[-> ->]].
    + destruct (Hl i x Hx) as (io' & G & R). exists io'. split; [rewrite nth_error_app1; [exact G|lia]|]. exact R.
    + exists io. split; [rewrite nth_error_app2 by lia; rewrite Hlen, Nat.sub_diag; reflexivity|]. split; [exact A|]. split; [|now split]. rewrite B, Hnp. reflexivity.
  - change (ask_stdout (E3 a w c)) with (E3 a (WPipe, out_flags) c). rewrite Hout.
    change (feed_stdin (E3 a w c) (np + List.length cs)) with (E3 (WOfd (OPipeR (np + List.length cs)), O_RDONLY) w c).
    destruct (wire_e3_plain _ w c d (w_np (wire (chain ws cs) (E3 a (WPipe, out_flags) c) np nt)) (w_nt (wire (chain ws cs) (E3 a (WPipe, out_flags) c) np nt)) Hf Hw Hc) as (io & nt' & E & A & B & C & D).
    rewrite E. cbn [w_leaves w_out w_np w_nt]. rewrite !app_length. cbn [List.length].
    split; [lia|]. split; [reflexivity|].
    intros i x Ex. destruct (Split i x Ex) as [[Hi Hx]|[-> ->]].
    + destruct (Hl i x Hx) as (io' & G & R). exists io'. split; [rewrite nth_error_app1; [exact G|lia]|]. replace (i =? List.length cs + 1) with false by (symmetry; apply Nat.eqb_neq; lia). exact R.
    + exists io. split; [rewrite nth_error_app2 by lia; rewrite Hlen, Nat.sub_diag; reflexivity|]. replace (S (List.length cs) =? List.length cs + 1) with true by (symmetry; apply Nat.eqb_eq; lia). repeat split; auto.
Qed.
Lemma last_for_in n l r : last_for n l = Some r -> In r l /\ r_fd r = n.
Proof.
  induction l as [|x l IH] using rev_ind; [discriminate|]. rewrite last_for_snoc. destruct (Nat.eqb_spec (r_fd x) n) as [E|E].
  - intros X. injection X as <-. split; [apply in_app_iff; right; now left|exact E].
  - intros X. destruct (IH X). split; [apply in_app_iff; now left|assumption].
Qed.
Lemma upd_nopipe can n l a : Forall (ordinary can) l -> nopipe a -> nopipe (upd n l a).
Proof.
  intros F Ha. unfold upd. destruct (last_for n l) as [r|] eqn:E; [|exact Ha]. apply last_for_in in E as [Hin _]. rewrite Forall_forall in F. destruct (F r Hin) as [_ H].
  unfold nopipe, wish. cbn. destruct (r_source r); try contradiction; discriminate.
Qed.
Lemma upd_fits can n l a (d : option ofd -> Prop) o : Forall (ordinary can) l -> (forall o, fits a o -> d o) -> fits (upd n l a) o -> as_set l n d o.
Proof.
  intros F Hd H. unfold upd, as_set in *. destruct (last_for n l) as [r|] eqn:E; [|now apply Hd]. apply last_for_in in E as [Hin _]. rewrite Forall_forall in F. destruct (F r Hin) as [_ R].
  unfold fits, wish in H. cbn in H. destruct (r_source r); try contradiction; exact H.
Qed.
Theorem run_set_chain L pf (piped : bool) l c cs s o0 o1 logfd maxfd :
  refers (s_tab s) 0 = Some o0 -> refers (s_tab s) 1 = Some o1 -> tget (s_tab s) 2 <> None -> Forall (ordinary (can_open L)) l ->
  match run_top L pf (fold_left plus l standard) (if piped then [stdout_pipe] else []) (chain c cs) s with
  | (_, Err e) => errs e
  | (s', Ok (ret, its)) =>
      let n := List.length cs in
      List.length its = S n /\
      (forall i ws, nth_error (c :: cs) i = Some ws -> exists rs t argv, nth_error its i = Some (IProc rs t argv) /\
        (room L logfd rs t -> find_free_fd rs < maxfd ->
         let see := program_fd L logfd maxfd rs t in
         argv = map Word ws /\
         match i with 0 => as_set l 0 (fun o => o = Some o0) (see 0) | S j => see 0 = Some (OPipeR (s_np s + j)) end /\
         (if andb (Nat.eqb i n) (negb piped) then as_set l 1 (fun o => o = Some o1) (see 1) else see 1 = Some (OPipeW (s_np s + i))) /\
         as_set l 2 (fun o => exists k, o = Some (OTmp k)) (see 2) /\
         (forall m, 2 < m -> m < maxfd -> m <> logfd -> see m = None))) /\
      (if piped then exists x, caller_fds ret = [x] /\ refers (s_tab s') x = Some (OPipeR (s_np s + n)) else True)
  end.
Proof.
  intros H0 H1 H2 Hl. pose proof (run_set_correct L pf piped l (chain c cs) s o0 o1 logfd maxfd H0 H1 H2 Hl (clean_chain _ _ _ _)) as S0.
  destruct (run_top L pf (fold_left plus l standard) (if piped then [stdout_pipe] else []) (chain c cs) s) as [s' [ [ret its] |e] ]; [|exact S0].
  destruct S0 as [F [O _] ]. cbn zeta.
  set (a := upd 0 l (WOfd o0, O_RDONLY)) in *. set (b := upd 1 l (WOfd o1, out_flags)) in *. set (d := upd 2 l (WTmp, out_flags)) in *.
  assert (Fd : Forall (fun r => r_fd r <= 2) l) by (eapply Forall_impl; [|exact Hl]; intros r [A _]; exact A).
  assert (Eo : override (top_env o0 o1 false) l = E3 a b d) by (change (top_env o0 o1 false) with (E3 (WOfd o0, O_RDONLY) (WOfd o1, out_flags) (WTmp, out_flags)); now rewrite override_E3).
  assert (Ha : nopipe a) by (eapply upd_nopipe; [exact Hl|discriminate]).
  assert (Hb : nopipe b) by (eapply upd_nopipe; [exact Hl|discriminate]).
  assert (Hd : nopipe d) by (eapply upd_nopipe; [exact Hl|discriminate]).
  destruct (wire_chain3 a d b c (s_np s) (s_nt s) Ha Hd cs) as [W1 W2]. specialize (W2 Hb). cbv zeta in W1, W2.
  assert (G : exists W, W = wire (chain c cs) (set_env piped o0 o1 l) (s_np s) (s_nt s) /\ List.length (w_leaves W) = S (List.length cs) /\
     (piped = true -> w_out W = Some (s_np s + List.length cs)) /\
     (forall i x, nth_error (c :: cs) i = Some x -> exists io, nth_error (w_leaves W) i = Some (LProc io (map WWord x)) /\
     link a (s_np s) i (io 0) /\ (if andb (Nat.eqb i (List.length cs)) (negb piped) then fits b (io 1) else io 1 = Some (OPipeW (s_np s + i))) /\ fits d (io 2) /\ forall m, 2 < m -> io m = None)).
  { eexists. split; [reflexivity|]. unfold set_env. rewrite Eo. destruct piped.
    - change (ask_stdout (E3 a b d)) with (E3 a (WPipe, out_flags) d). destruct W1 as (A & _ & B & C). split; [exact B|]. split; [intros _; exact A|].
      intros i x Ex. rewrite Bool.andb_false_r. exact (C i x Ex).
    - destruct W2 as (A & _ & C). split; [exact A|]. split; [discriminate|]. intros i x Ex. rewrite Bool.andb_true_r. exact (C i x Ex). }
  clear W1 W2. destruct G as (W & EW & GL & GO & GW). rewrite <- EW in *. clear EW.
  split; [rewrite <- GL; symmetry; eapply F2_length; exact F|]. split.
  - intros i ws Hi. destruct (GW i ws Hi) as (io & E & I0 & I1 & I2 & I3).
    destruct (F2_nth _ _ _ F _ _ E) as [it [E2 K] ].
    destruct it as [rs t argv|]; [|destruct K]. exists rs, t, argv. split; [easy|]. intros R M.
    destruct (K R M) as [_ [_ [K1 K2] ] ]. apply words_connected in K1. subst argv. rewrite words_numbers in K2.
    split; [easy|].
    pose proof (proj1 (find_free_fd_above rs)). assert (logfd > 2) by (destruct R as [_ [R _] ]; lia).
    rewrite !K2 by (cbn; auto; lia). repeat split.
    + destruct i; [|exact I0]. eapply upd_fits; [exact Hl| |exact I0]. intros o X. exact X.
    + destruct (andb (Nat.eqb i (List.length cs)) (negb piped)); [|exact I1]. eapply upd_fits; [exact Hl| |exact I1]. intros o X. exact X.
    + eapply upd_fits; [exact Hl| |exact I2]. intros o X. exact X.
    + intros m Hm M1 M2. rewrite K2; auto.
  - destruct piped; [|easy]. destruct O as [x [k [O1 [O2 O3] ] ] ]. exists x. split; [easy|]. rewrite (GO eq_refl) in O2. now injection O2 as <-.
Qed.
