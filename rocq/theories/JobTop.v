(** From a started pipeline with redirected ends to the network of its processes. *)
From Verif Require Import Py RedirModel RedirSpec RedirProofs Os PerformModel PerformSpec PerformProofs PerformSound RunModel RunSpec RunTopSpec RunProofs RunPre RunMake RunMake2 RunMain RunArgs RunTop RunEnds RunMore RunStarted RunFinal FileModel FileSpec NetModel NetSpec JobModel JobSpec.

Definition settled (w : want) : Prop := match w with WOfd _ | WPath _ => True | _ => False end.
Definition envf (a : want * N) (b : want * N) : wenv := [(0, a); (1, b); (2, (WTmp, out_flags))].
Definition iof (a b : want * N) (c : ofd) : wenv := [(0, a); (1, b); (2, (WOfd c, out_flags))].
Lemma wire_settled a b ws np nt : settled (fst a) -> settled (fst b) ->
  wire (PCmd (map AWord ws)) (envf a b) np nt = mkWired [LProc (io_of (iof a b (OTmp nt))) (map WWord ws)] None None np (S nt).
Proof. destruct a as [[] fa], b as [[] fb]; try contradiction; intros _ _; rewrite wire_PCmd; cbn [make envf]; rewrite wire_args_words; reflexivity. Qed.
Lemma wire_settled_pipe a ws np nt : settled (fst a) ->
  wire (PCmd (map AWord ws)) (envf a (WPipe, out_flags)) np nt =
  mkWired [LProc (io_of (iof a (WOfd (OPipeW np), out_flags) (OTmp nt))) (map WWord ws)] None (Some np) (S np) (S nt).
Proof. destruct a as [[] fa]; try contradiction; intros _; rewrite wire_PCmd; cbn [make envf]; rewrite wire_args_words; reflexivity. Qed.
Definition first_or_pipe (a : want * N) (np i : nat) : want * N := match i with 0 => a | S j => (WOfd (OPipeR (np + j)), O_RDONLY) end.
Definition leaf_at (a : want * N) (np nt n : nat) (last : want * N) (i : nat) (ws : list string) (lf : leaf) : Prop :=
  lf = LProc (io_of (iof (first_or_pipe a np i) (if Nat.eqb i n then last else (WOfd (OPipeW (np + i)), out_flags)) (OTmp (nt + i)))) (map WWord ws).
Lemma wire_file_chain a c np nt : settled (fst a) -> forall cs,
  (let W := wire (chain c cs) (envf a (WPipe, out_flags)) np nt in
   w_out W = Some (np + List.length cs) /\ w_np W = np + S (List.length cs) /\ w_nt W = nt + S (List.length cs) /\
   List.length (w_leaves W) = S (List.length cs) /\
   forall i ws, nth_error (c :: cs) i = Some ws -> exists lf, nth_error (w_leaves W) i = Some lf /\
     leaf_at a np nt (List.length cs) (WOfd (OPipeW (np + List.length cs)), out_flags) i ws lf) /\
  (forall b, settled (fst b) -> let W := wire (chain c cs) (envf a b) np nt in
   List.length (w_leaves W) = S (List.length cs) /\
   forall i ws, nth_error (c :: cs) i = Some ws -> exists lf, nth_error (w_leaves W) i = Some lf /\
     leaf_at a np nt (List.length cs) b i ws lf).
Proof.
  intros Ha cs. induction cs as [|d cs [IH1 IH2]] using rev_ind.
  { split.
    - cbv zeta. unfold chain, chain_from. rewrite wire_settled_pipe by exact Ha. cbn. repeat split; try lia; [f_equal; lia|].
      intros [|i] ws E; [|destruct i; discriminate]. injection E as <-. eexists. split; [reflexivity|].
      unfold leaf_at. cbn. rewrite !Nat.add_0_r. reflexivity.
    - intros b Hb. cbv zeta. unfold chain, chain_from. rewrite wire_settled by assumption. cbn. repeat split.
      intros [|i] ws E; [|destruct i; discriminate]. injection E as <-. eexists. split; [reflexivity|].
      unfold leaf_at. cbn. rewrite !Nat.add_0_r. reflexivity. }
  cbv zeta in IH1. destruct IH1 as [Hout [Hnp [Hnt [Hlen Hl]]]]. clear IH2.
  assert (Split : forall i ws, nth_error (c :: cs ++ [d]) i = Some ws ->
     (i < S (List.length cs) /\ nth_error (c :: cs) i = Some ws) \/ (i = S (List.length cs) /\ ws = d)).
  { intros i ws E. change (c :: cs ++ [d]) with ((c :: cs) ++ [d]) in E.
    destruct (Nat.lt_ge_cases i (S (List.length cs))) as [H|H].
    - left. split; [exact H|]. rewrite nth_error_app1 in E; [exact E|exact H].
    - right. rewrite nth_error_app2 in E by exact H. cbn [List.length] in E.
      destruct (i - S (List.length cs)) as [|j] eqn:Ei; cbn in E.
      + injection E as <-. split; [lia|reflexivity].
      + destruct j; discriminate. }
  assert (Go : forall b W, settled (fst b) \/ b = (WPipe, out_flags) ->
    w_leaves W = w_leaves (wire (chain c cs) (envf a (WPipe, out_flags)) np nt) ++ [LProc (io_of (iof (WOfd (OPipeR (np + List.length cs)), O_RDONLY) b (OTmp (nt + S (List.length cs))))) (map WWord d)] ->
    List.length (w_leaves W) = S (List.length (cs ++ [d])) /\
    forall i ws, nth_error (c :: cs ++ [d]) i = Some ws -> exists lf, nth_error (w_leaves W) i = Some lf /\ leaf_at a np nt (List.length (cs ++ [d])) b i ws lf).
  { intros b W Hb ->. rewrite !app_length, Hlen. cbn [List.length]. split; [lia|].
    intros i ws E. destruct (Split i ws E) as [[Hi Hw]|[-> ->]].
    + destruct (Hl i ws Hw) as [lf [G ->]]. eexists. split; [rewrite nth_error_app1; [exact G|lia]|].
      unfold leaf_at. destruct (Nat.eqb_spec i (List.length cs)) as [->|].
      * replace (List.length cs =? List.length cs + 1) with false by (symmetry; apply Nat.eqb_neq; lia). reflexivity.
      * replace (i =? List.length cs + 1) with false by (symmetry; apply Nat.eqb_neq; lia). reflexivity.
    + eexists. split; [rewrite nth_error_app2 by lia; rewrite Hlen, Nat.sub_diag; reflexivity|].
      unfold leaf_at. cbn [first_or_pipe].
      replace (S (List.length cs) =? List.length cs + 1) with true by (symmetry; apply Nat.eqb_eq; lia). reflexivity. }
  split; [|intros b Hb]; cbv zeta; rewrite chain_snoc, wire_PPipe; cbv zeta.
  - change (ask_stdout (envf a (WPipe, out_flags))) with (envf a (WPipe, out_flags)). rewrite Hout.
    change (feed_stdin (envf a (WPipe, out_flags)) (np + List.length cs)) with (envf (WOfd (OPipeR (np + List.length cs)), O_RDONLY) (WPipe, out_flags)).
    rewrite wire_settled_pipe by exact Logic.I.
    cbn [w_leaves w_out w_np w_nt]. rewrite !app_length, Hnp, Hnt, Hlen. cbn [List.length].
    split; [f_equal; lia|]. split; [lia|]. split; [lia|]. split; [lia|].
    intros i ws E. destruct (Split i ws E) as [[Hi Hw]|[-> ->]].
    + destruct (Hl i ws Hw) as [lf [G ->]]. eexists. split; [rewrite nth_error_app1; [exact G|lia]|].
      unfold leaf_at. destruct (Nat.eqb_spec i (List.length cs)) as [->|].
      * replace (List.length cs =? List.length cs + 1) with false by (symmetry; apply Nat.eqb_neq; lia). reflexivity.
      * replace (i =? List.length cs + 1) with false by (symmetry; apply Nat.eqb_neq; lia). reflexivity.
    + eexists. split; [rewrite nth_error_app2 by lia; rewrite Hlen, Nat.sub_diag; reflexivity|].
      unfold leaf_at. cbn [first_or_pipe].
      replace (S (List.length cs) =? List.length cs + 1) with true by (symmetry; apply Nat.eqb_eq; lia).
      replace (List.length cs + 1) with (S (List.length cs)) by lia. reflexivity.
  - assert (EA : ask_stdout (envf a b) = envf a (WPipe, out_flags)) by reflexivity. rewrite EA, Hout.
    change (feed_stdin (envf a b) (np + List.length cs)) with (envf (WOfd (OPipeR (np + List.length cs)), O_RDONLY) b).
    rewrite wire_settled by (assumption || exact Logic.I). apply Go; [now left|]. cbn [w_leaves]. now rewrite Hnt.
Qed.

Section Top.
  Variable L : limits.
  Variable pf : ofd -> bool.
  Variables logfd maxfd : nat.
  Variable c : list string.
  Variable cs : list (list string).
  Variables inr outr : option redirect.
  Variables s s' : st.
  Variable its : list item.
  Hypothesis HL : launched_job L pf logfd maxfd c cs inr outr s s' its.
  Notation n := (List.length cs).
  Notation sees := (map (item_sees L logfd maxfd) its).
  Notation see i := (nth i sees (fun _ => None)).
  Definition end_ofd (dflt : ofd) (r : option redirect) : ofd :=
    match r with Some r => match r_source r with SPath p => OFile p (r_flag r) | _ => dflt end | None => dflt end.
  Definition end_want (dflt : ofd) (fl : N) (r : option redirect) : want * N := match r with Some r => wish r | None => (WOfd dflt, fl) end.
  Lemma job_facts : exists o0 o1,
    refers (s_tab s) 0 = Some o0 /\ refers (s_tab s) 1 = Some o1 /\ List.length its = S n /\
    (forall i, i <= n -> see i 0 = Some (match i with 0 => end_ofd o0 inr | S j => OPipeR (s_np s + j) end) /\
       see i 1 = Some (if Nat.eqb i n then end_ofd o1 outr else OPipeW (s_np s + i)) /\
       (exists k, see i 2 = Some (OTmp k)) /\ forall m, 2 < m -> m < maxfd -> m <> logfd -> see i m = None) /\
    (forall m, tget (s_tab s') m = tget (s_tab s) m).
  Proof.
    destruct HL as (A0 & A1 & A2 & Old & NoF & HI & HO & Dif & (ret & Es) & Hlog & Hmax & Hroom).
    destruct (refers (s_tab s) 0) as [o0|] eqn:E0; [|congruence]. destruct (refers (s_tab s) 1) as [o1|] eqn:E1; [|congruence].
    exists o0, o1. split; [reflexivity|]. split; [reflexivity|].
    assert (Cl : clean (can_open L) INone false (redirected c cs inr outr)).
    { assert (CI : forall r, inr = Some r -> r_fd r = 0 /\ redirect_clean (can_open L) INone false (0, r)).
      { intros r Er. destruct (HI r Er) as (p & F1 & F2 & F3 & _). split; [exact F1|]. unfold redirect_clean. cbn [snd]. rewrite F1, F2. repeat split; auto. }
      assert (CO : forall r, outr = Some r -> r_fd r = 1 /\ redirect_clean (can_open L) INone false (1, r)).
      { intros r Er. destruct (HO r Er) as (p & F1 & F2 & F3 & _). split; [exact F1|]. unfold redirect_clean. cbn [snd]. rewrite F1, F2. repeat split; auto. }
      assert (SI : forall r, inr = Some r -> r_source r <> SNone) by (intros r Er; destruct (HI r Er) as (p & _ & F2 & _); congruence).
      assert (SO : forall r, outr = Some r -> r_source r <> SNone) by (intros r Er; destruct (HO r Er) as (p & _ & F2 & _); congruence).
      unfold redirected. destruct inr as [ri|], outr as [ro|]; try apply clean_chain; cbn [clean List.app]; (split; [|split; [|apply clean_chain]]).
      all: try (split; [cbn; repeat constructor; cbn; intuition discriminate|]).
      all: repeat (apply Forall_cons; [|try apply Forall_nil]); cbn [fst snd]; try (split; [apply CI|apply SI]; reflexivity); try (split; [apply CO|apply SO]; reflexivity); try (apply CI; reflexivity); try (apply CO; reflexivity); try apply Forall_nil. }
    pose proof (start_correct L pf false (redirected c cs inr outr) s o0 o1 logfd maxfd E0 E1 A2 Cl) as S2. rewrite Es in S2. cbn zeta in S2. destruct S2 as (F & _ & _ & _ & Same).
    assert (EW : wire (redirected c cs inr outr) (top_env o0 o1 false) (s_np s) (s_nt s) = wire (chain c cs) (envf (end_want o0 O_RDONLY inr) (end_want o1 out_flags outr)) (s_np s) (s_nt s)).
    { unfold redirected. destruct inr as [ri|], outr as [ro|]; try reflexivity; cbn [wire List.app dvals map override snd]; f_equal.
      all: try (destruct (HI ri eq_refl) as (p & -> & _)); try (destruct (HO ro eq_refl) as (p' & -> & _)); reflexivity. }
    rewrite EW in F.
    assert (SI : settled (fst (end_want o0 O_RDONLY inr))).
    { destruct inr as [ri|]; [|exact Logic.I]. destruct (HI ri eq_refl) as (p & _ & Ep & _). cbn. now rewrite Ep. }
    assert (SO : settled (fst (end_want o1 out_flags outr))).
    { destruct outr as [ro|]; [|exact Logic.I]. destruct (HO ro eq_refl) as (p & _ & Ep & _). cbn. now rewrite Ep. }
    destruct (wire_file_chain (end_want o0 O_RDONLY inr) c (s_np s) (s_nt s) SI cs) as [_ WF]. specialize (WF _ SO). cbn zeta in WF. destruct WF as [LW WF].
    assert (Li : List.length its = S n) by (rewrite <- LW; symmetry; eapply F2_length; exact F).
    assert (OI : ofd_of (end_want o0 O_RDONLY inr) = Some (end_ofd o0 inr)).
    { destruct inr as [ri|]; [|reflexivity]. destruct (HI ri eq_refl) as (p & _ & Ep & _). cbn. unfold wish. now rewrite Ep. }
    assert (OO : ofd_of (end_want o1 out_flags outr) = Some (end_ofd o1 outr)).
    { destruct outr as [ro|]; [|reflexivity]. destruct (HO ro eq_refl) as (p & _ & Ep & _). cbn. unfold wish. now rewrite Ep. }
    assert (All : forall i, i <= n -> exists rs t argv, nth_error its i = Some (IProc rs t argv) /\
      let sf := program_fd L logfd maxfd rs t in
      sf 0 = Some (match i with 0 => end_ofd o0 inr | S j => OPipeR (s_np s + j) end) /\
      sf 1 = Some (if Nat.eqb i n then end_ofd o1 outr else OPipeW (s_np s + i)) /\ (exists k, sf 2 = Some (OTmp k)) /\ forall m, 2 < m -> m < maxfd -> m <> logfd -> sf m = None).
    { intros i Hi. destruct (nth_error (c :: cs) i) as [ws|] eqn:Ew; [|apply nth_error_None in Ew; cbn in Ew; lia].
      destruct (WF i ws Ew) as (lf & El & ->). destruct (F2_nth _ _ _ F _ _ El) as [it [E2 K] ].
      destruct it as [rs t argv|]; [|destruct K]. exists rs, t, argv. split; [exact E2|]. destruct (Hroom rs t argv (nth_error_In _ _ E2)) as [R M].
      destruct (K R M) as [_ [_ [K1 K2] ] ]. apply words_connected in K1. subst argv. rewrite words_numbers in K2. cbn zeta.
      pose proof (proj1 (find_free_fd_above rs)).
      rewrite !K2 by (cbn; auto; lia). split; [|split; [|split]].
      - destruct i; [exact OI|reflexivity].
      - destruct (Nat.eqb i n); [exact OO|reflexivity].
      - eexists. reflexivity.
      - intros m Hm M1 M2. rewrite K2 by auto. destruct m as [|[|[|m] ] ]; try lia. reflexivity. }
    split; [exact Li|]. split.
    - intros i Hi. destruct (All i Hi) as (rs & t & argv & Ei & X).
      assert (Es' : see i = program_fd L logfd maxfd rs t).
      { rewrite (nth_indep _ _ (item_sees L logfd maxfd (IProc rs t argv))) by (rewrite map_length; lia). rewrite map_nth. now rewrite (nth_error_nth _ _ _ Ei). }
      rewrite Es'. exact X.
    - intros m. apply Same. cbn [List.app].
      assert (Nil : function_fds its = []); [|rewrite Nil; intros []].
      assert (Pr : forall it, In it its -> exists rs t argv, it = IProc rs t argv).
      { intros it Hit. apply In_nth_error in Hit as [i Hi]. assert (Hl : i < List.length its) by (apply nth_error_Some; congruence).
        destruct (All i ltac:(lia)) as (rs & t & argv & X & _). rewrite Hi in X. injection X as ->. eauto. }
      clear -Pr. induction its as [|it its' IH]; [reflexivity|]. destruct (Pr it (or_introl eq_refl)) as (rs & t & argv & ->). cbn. apply IH. intros it' Hit. apply Pr. now right.
  Qed.
End Top.
