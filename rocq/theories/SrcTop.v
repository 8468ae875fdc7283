(** From a started pipeline with a python iterator at its head to the network. *)
From Verif Require Import Py RedirModel Os PerformModel PerformSpec PerformProofs RunModel RunSpec RunTopSpec RunEnds RunTop RunMore RunStarted RunFinal IterModel IterSpec IterProofs NetModel NetSpec NetProofs NetTop PropsNet SrcModel SrcSpec SrcProofs.

Lemma wire_fun_pipe a np nt : wire (PFun false) (env3 a WPipe) np nt = mkWired [LFun None (Some (OPipeW np))] None (Some np) (S np) (S nt).
Proof. reflexivity. Qed.
Lemma sourced_snoc cs d : chain_from (PFun false) (cs ++ [d]) = PPipe (chain_from (PFun false) cs) (PCmd (map AWord d)).
Proof. rewrite chain_from_app. reflexivity. Qed.
Lemma wire_sourced o0 np nt : forall cs,
  let W := wire (chain_from (PFun false) cs) (env3 o0 WPipe) np nt in
  w_out W = Some (np + List.length cs) /\ w_np W = np + S (List.length cs) /\ w_nt W = nt + S (List.length cs) /\
  List.length (w_leaves W) = S (List.length cs) /\ nth_error (w_leaves W) 0 = Some (LFun None (Some (OPipeW np))) /\
  forall i ws, nth_error cs i = Some ws ->
    nth_error (w_leaves W) (S i) = Some (LProc (io_of (io3 (OPipeR (np + i)) (OPipeW (np + S i)) (OTmp (nt + S i)))) (map WWord ws)).
Proof.
  induction cs as [|d cs IH] using rev_ind; cbv zeta.
  - cbn [chain_from]. rewrite wire_fun_pipe. cbn. repeat split; try lia; [f_equal; lia|]. intros [|i] ws; discriminate.
  - cbv zeta in IH. destruct IH as (Hout & Hnp & Hnt & Hlen & H0 & Hl). rewrite sourced_snoc, wire_PPipe. cbv zeta.
    change (ask_stdout (env3 o0 WPipe)) with (env3 o0 WPipe). rewrite Hout.
    change (feed_stdin (env3 o0 WPipe) (np + List.length cs)) with (env3 (OPipeR (np + List.length cs)) WPipe).
    rewrite wire_words_pipe. cbn [w_leaves w_out w_np w_nt]. rewrite !app_length, Hnp, Hnt. cbn [List.length].
    split; [f_equal; lia|]. split; [lia|]. split; [lia|]. split; [lia|]. split; [rewrite nth_error_app1 by lia; exact H0|].
    intros i ws E. destruct (Nat.lt_ge_cases i (List.length cs)) as [Hi|Hi].
    + rewrite nth_error_app1 in E by exact Hi. rewrite nth_error_app1 by lia. now apply Hl.
    + rewrite nth_error_app2 in E by exact Hi. assert (i = List.length cs) as ->.
      { assert (i - List.length cs < 1) by (apply (nth_error_Some [d]); congruence). lia. }
      rewrite Nat.sub_diag in E. injection E as <-. rewrite nth_error_app2 by lia. rewrite Hlen, Nat.sub_diag. reflexivity.
Qed.
Lemma clean_sourced can cs piped : clean can INone piped (chain_from (PFun false) cs).
Proof.
  assert (W : forall i o ws, clean can i o (PCmd (map AWord ws))).
  { intros i o ws. cbn. induction ws; cbn; auto. }
  revert piped. induction cs as [|d cs IH] using rev_ind; intros piped; [exact Logic.I|].
  rewrite sourced_snoc. cbn [clean]. split; [apply IH|apply (W IPiped piped d)].
Qed.
Lemma refers_without t f m : refers (without t [f]) m = if Nat.eqb m f then None else refers t m.
Proof.
  unfold without. cbn [fold_right]. unfold refers. Local Transparent tget. unfold tget.
  destruct (Nat.lt_ge_cases f (List.length t)) as [Hf|Hf].
  - assert (G : nth_error (set_nth t f None) m = if Nat.eqb m f then Some None else nth_error t m).
    { revert f m Hf. induction t as [|y t IH]; intros f m Hf; cbn in Hf; [lia|]. destruct f as [|f], m as [|m]; cbn; auto. apply IH. lia. }
    rewrite G. now destruct (Nat.eqb m f).
  - assert (G : set_nth t f None = t).
    { revert f Hf. induction t as [|y t IH]; intros f Hf; [reflexivity|]. destruct f as [|f]; cbn in Hf |- *; [lia|]. f_equal. apply IH. lia. }
    rewrite G. destruct (Nat.eqb_spec m f) as [->|]; [|reflexivity]. now rewrite (proj2 (nth_error_None t f) Hf).
Qed.

Section Top.
  Variable L : limits.
  Variable pf : ofd -> bool.
  Variables logfd maxfd : nat.
  Variable cs : list (list string).
  Variables s s' : st.
  Variable its : list item.
  Variable x : nat.
  Hypothesis HL : sourced L pf logfd maxfd cs s s' its x.
  Notation n := (List.length cs).
  Notation sees := (map (item_has L logfd maxfd (s_tab s')) its).
  Notation see i := (nth i sees (fun _ => None)).
  Notation fds := (proc_fds logfd maxfd).
  Notation rest_tab := (without (s_tab s') (function_fds its)).

  Lemma sourced_facts : exists outfd,
    function_fds its = [outfd] /\ source_pipe (s_tab s') its = s_np s /\ List.length its = S n /\
    (forall m, see 0 m = if Nat.eqb m 1 then Some (OPipeW (s_np s)) else None) /\
    (forall i, i < n -> see (S i) 0 = Some (OPipeR (s_np s + i)) /\
       see (S i) 1 = Some (OPipeW (s_np s + S i)) /\ (exists k, see (S i) 2 = Some (OTmp k)) /\ forall m, 2 < m -> m < maxfd -> m <> logfd -> see (S i) m = None) /\
    refers (s_tab s') x = Some (OPipeR (s_np s + n)) /\ x <> outfd /\
    (forall m, m <> x -> m <> outfd -> tget (s_tab s') m = tget (s_tab s) m).
  Proof.
    destruct HL as (A0 & A1 & A2 & Old & (ret & Es & Ec) & Hlog & Hmax & Hroom).
    destruct (refers (s_tab s) 0) as [o0|] eqn:E0; [|congruence]. destruct (refers (s_tab s) 1) as [o1|] eqn:E1; [|congruence].
    pose proof (start_correct L pf true (chain_from (PFun false) cs) s o0 o1 logfd maxfd E0 E1 A2 (clean_sourced _ _ _)) as S2. rewrite Es in S2. cbn zeta in S2.
    destruct S2 as (F & (xx & k & Ex & Ek & Rx) & ND & _ & Same). rewrite Ec in Ex. injection Ex as <-.
    change (top_env o0 o1 true) with (env3 o0 WPipe) in *.
    destruct (wire_sourced o0 (s_np s) (s_nt s) cs) as (Wo & _ & _ & Wl & W0 & WS). cbv zeta in *. rewrite Wo in Ek. injection Ek as <-.
    pose proof (F2_length _ _ _ F) as FL. rewrite Wl in FL.
    destruct (F2_nth _ _ _ F _ _ W0) as (it & I0 & C0). destruct it as [|infd outfd frs]; [destruct C0|]. destruct C0 as [C01 C02]. destruct infd; [destruct C01|].
    assert (Procs : forall i, i < n -> exists rs t argv, nth_error its (S i) = Some (IProc rs t argv) /\ (forall m, m < maxfd -> m <> logfd -> program_fd L logfd maxfd rs t m = io_of (io3 (OPipeR (s_np s + i)) (OPipeW (s_np s + S i)) (OTmp (s_nt s + S i))) m)).
    { intros i Hi. destruct (nth_error cs i) as [ws|] eqn:Ei; [|apply nth_error_None in Ei; lia]. destruct (F2_nth _ _ _ F _ _ (WS i ws Ei)) as (it & I & C).
      destruct it as [rs t argv|]; [|destruct C]. exists rs, t, argv. split; [exact I|]. destruct (Hroom rs t argv (nth_error_In _ _ I)) as [R M].
      destruct (C R M) as (_ & _ & K1 & K2). apply words_connected in K1. subst argv. rewrite words_numbers in K2. intros m Hm1 Hm2. apply K2; auto. }
    destruct its as [|it0 its']; [discriminate|]. cbn in I0. injection I0 as ->.
    assert (Ff : function_fds (IFun None outfd frs :: its') = [outfd]).
    { change (function_fds (IFun None outfd frs :: its')) with (outfd :: function_fds its'). f_equal. cbn in FL. injection FL as FL.
      assert (All : forall it, In it its' -> exists rs t argv, it = IProc rs t argv).
      { intros it Hit. apply In_nth_error in Hit as [i Hi]. assert (Hl : i < List.length its') by (apply nth_error_Some; congruence).
        destruct (Procs i ltac:(lia)) as (rs & t & argv & X & _). cbn in X. rewrite Hi in X. injection X as ->. eauto. }
      clear -All. induction its' as [|it its' IH]; [reflexivity|]. destruct (All it (or_introl eq_refl)) as (rs & t & argv & ->). cbn. apply IH. intros it' Hit. apply All. now right. }
    exists outfd. split; [exact Ff|]. split; [cbn; now rewrite C02|]. split; [now symmetry|]. rewrite Ec, Ff in ND, Same. split; [|split; [|split; [|split]]].
    - intros m. cbn. destruct m as [|[|m]]; cbn; auto.
    - intros i Hi. destruct (Procs i Hi) as (rs & t & argv & Ei & P).
      assert (Es' : nth (S i) (map (item_has L logfd maxfd (s_tab s')) (IFun None outfd frs :: its')) (fun _ => None) = program_fd L logfd maxfd rs t).
      { rewrite (nth_indep _ _ (item_has L logfd maxfd (s_tab s') (IProc rs t argv))) by (rewrite map_length, <- FL; lia). rewrite map_nth. now rewrite (nth_error_nth _ _ _ Ei). }
      rewrite Es'. split; [rewrite P by lia; reflexivity|]. split; [rewrite P by lia; reflexivity|]. split; [exists (s_nt s + S i); rewrite P by lia; reflexivity|].
      intros m M1 M2 M3. rewrite P by lia. destruct m as [|[|[|m]]]; try lia. reflexivity.
    - exact Rx.
    - inversion ND; subst. intros ->. cbn in *. tauto.
    - intros m M1 M2. apply Same. cbn. intuition congruence.
  Qed.

  Hypothesis Hcs : cs <> [].
    Lemma source_hyps (P : Prop) :
      (List.length sees = S n ->
       (forall k, see 0 0 = Some (OPipeR k) -> k < s_np s) -> see 0 0 = None ->
       (forall j, j < n -> see (S j) 0 = Some (OPipeR (s_np s + j))) ->
       (forall i, i <= n -> see i 1 = Some (OPipeW (s_np s + i))) ->
       (forall i m k, i <= n -> In m fds -> s_np s <= k -> see i m = Some (OPipeW k) -> k = s_np s + i) ->
       (forall i m k, i <= n -> In m fds -> s_np s <= k -> see i m = Some (OPipeR k) -> exists j, i = S j /\ k = s_np s + j) ->
       In 0 fds -> In 1 fds ->
       (forall m k, refers rest_tab m = Some (OPipeW k) -> k < s_np s) ->
       (forall m k, refers rest_tab m = Some (OPipeR k) -> s_np s <= k -> m = x) ->
       refers rest_tab x = Some (OPipeR (s_np s + n)) ->
       caller_pipe (s_tab s') x = s_np s + n -> source_pipe (s_tab s') its = s_np s -> 0 < n -> P) -> P.
    Proof.
      destruct sourced_facts as (outfd & Ff & Sp & Li & See0 & Sees & Rx & Nx & Same). destruct HL as (_ & _ & _ & Old & _ & Hlog & Hmax & _). intros Go.
      assert (Old' : forall m o, m <> x -> refers rest_tab m = Some o -> is_end o -> pipe_no o < s_np s).
      { intros m o Hm Er He. rewrite Ff, refers_without in Er. destruct (Nat.eqb_spec m outfd) as [|Ne]; [discriminate|]. apply (Old m o); [|exact He]. unfold refers in *. now rewrite <- (Same m Hm Ne). }
      assert (Rx' : refers rest_tab x = Some (OPipeR (s_np s + n))).
      { rewrite Ff, refers_without. destruct (Nat.eqb_spec x outfd); [congruence|exact Rx]. }
      assert (Cases : forall i m o, i < n -> In m fds -> see (S i) m = Some o -> o = OPipeR (s_np s + i) \/ o = OPipeW (s_np s + S i) \/ exists k, o = OTmp k).
      { intros i m o Hi Hm Es. apply fds_spec in Hm as [Hm1 Hm2]. destruct (Sees i Hi) as (B0 & B1 & (k & B2) & B3). destruct m as [|[|[|m] ] ].
        - left. congruence.
        - right. left. congruence.
        - right. right. exists k. congruence.
        - rewrite B3 in Es by lia. discriminate. }
      apply Go.
      - rewrite map_length. exact Li.
      - intros k E. rewrite See0 in E. discriminate.
      - now rewrite See0.
      - intros j Hj. exact (proj1 (Sees j Hj)).
      - intros [|i] Hi; [rewrite See0, Nat.add_0_r; reflexivity|]. exact (proj1 (proj2 (Sees i Hi))).
      - intros [|i] m k Hi Hm Hk E.
        + rewrite See0 in E. destruct (Nat.eqb m 1); [|discriminate]. injection E as <-. lia.
        + destruct (Cases i m _ Hi Hm E) as [X|[X|[k' X] ] ]; [discriminate|congruence|discriminate].
      - intros [|i] m k Hi Hm Hk E.
        + rewrite See0 in E. destruct (Nat.eqb m 1); discriminate.
        + destruct (Cases i m _ Hi Hm E) as [X|[X|[k' X] ] ]; [|discriminate|discriminate]. exists i. split; [reflexivity|congruence].
      - apply fds_spec. lia.
      - apply fds_spec. lia.
      - intros m k E. destruct (Nat.eq_dec m x) as [->|Ne]; [congruence|]. apply (Old' m _ Ne E). exact Logic.I.
      - intros m k E Hk. destruct (Nat.eq_dec m x) as [->|Ne]; [reflexivity|]. pose proof (Old' m _ Ne E Logic.I) as X. cbn in X. lia.
      - exact Rx'.
      - unfold caller_pipe. now rewrite Rx.
      - exact Sp.
      - destruct cs; [congruence|cbn; lia].
    Qed.
  Section Handler.
    Variable H : Type.
    Variable h_wants : H -> bool.
    Variable h_event : H -> bytes -> H * bool.
    Variable h_next h_resume : H -> H * outcome.
    Variable h_open : H -> bool.
    Variable RI : rstate H -> Prop.
    Hypothesis RI_step : forall r l r', RI r -> rstep H h_wants h_event h_next h_resume h_open true r l = Some r' -> RI r'.
    Hypothesis RI_open : forall r, RI r -> h_open (r_h r) = false -> r_wopen r = false.
    Variable h : H.
    Hypothesis RI_start : RI (r_init H h).
    Variables cap pipe_buf : nat.
    Variable items : list (option bytes).
    Variable e : iend.
    Variables progs : list prog.
    Variable out : list N.
    Hypothesis Hlen : List.length progs = n.
    Variable es : nat -> option bool.
    Variable T : Prop.
    Variable ws : nat -> list N.
    Variable cs0 : nat -> nat.
    Notation st0 := (fun okf => net_start H h (emits (rendered items) (iok e) okf :: progs) []).
    Hypothesis HF : forall okf, facts cs (emits (rendered items) (iok e) okf :: progs) [] out es T ws cs0.
    Hypothesis He0 : es 0 = Some (iok e).
    Notation K := (s_np s + n).
    Notation steps := (fsteps H h_wants h_event h_next h_resume h_open (s_np s) cap pipe_buf fds sees rest_tab x (caller_pipe (s_tab s') x) (source_pipe (s_tab s') its)).
    Notation okfs okf := (fun i => match i with 0 => okf | S _ => false end).
    Notation C := (Forall careful progs).
    Notation invS okf := (inv H (s_np s) sees n RI out es (okfs okf) C T).
    Notation nstepsS := (nsteps H h_wants h_event h_next h_resume h_open (s_np s) cap fds sees rest_tab x K).
    Notation pre := (forall r, RI r -> r_pend r <> [] -> exists r', drains H h_wants h_event h_next h_resume h_open r r' /\ List.length (r_pend r') < List.length (r_pend r)).
    Notation fin := (forall r, RI r -> r_pend r = [] -> r_wopen r = false -> exists r', drains H h_wants h_event h_next h_resume h_open r r' /\ r_phase r' = PAtEof).
    Lemma okfs_ok okf : (iok e = false -> okf = false) -> C -> forall i, es i = Some false -> (okfs okf) i = false.
    Proof. intros X _ [|i] E; [|reflexivity]. rewrite He0 in E. injection E as E. auto. Qed.
    Lemma src_start okf : List.length sees = S n -> invS okf (st0 okf) ws cs0.
    Proof.
      intros X1. destruct (HF okf) as (F1 & F2 & F3 & F4). apply inv_start; [exact X1|reflexivity|exact RI_start|cbn; congruence| |exact F2]. intros i q Ei. destruct (F1 i q Ei) as (B1 & B2 & B3). split; [exact B1|]. split; [|split; [auto|exact B3]].
      intros HC. destruct i as [|i]; cbn in Ei; [injection Ei as <-; apply heeds_emits|]. apply careful_heeds. rewrite Forall_forall in HC. apply HC. eapply nth_error_In; exact Ei.
    Qed.
    (** The state of a network in which a program stands for the iterator. *)
    Definition shadow (t : fnet H) (N : nat) (okf : bool) (t1 : net H) : Prop :=
      (iok e = false -> okf = false) /\ end_gone H t1 /\
      n_rd t1 = n_rd (f_net t) /\ n_ok t1 = n_ok (f_net t) /\ (forall i, nth (S i) (n_procs t1) None = nth (S i) (n_procs (f_net t)) None) /\
      (if o_open (f_out t) then nth 0 (n_procs t1) None <> None /\ nth 0 (n_procs (f_net t)) None <> None else t1 = f_net t /\ nth 0 (n_procs t1) None = None) /\
      (exists ws' cs', invS okf t1 ws' cs' /\ (busy n es C -> total cs' n + N <= total cs0 n)) /\
      exists rl, rsteps H h_wants h_event h_next h_resume h_open true (r_init H h) rl = Some (n_rd t1).
    Lemma all_shadow ls t : steps (fnet_start H h items e progs) ls = Some t -> exists okf t1, shadow t (List.length (filter prog_label ls)) okf t1 /\ okinv e (f_out t).
    Proof.
      apply source_hyps. intros X1 X2 X3 X4 X5 X6 X7 X8 X9 X10 X11 X12 EK Ek0 Hn E. rewrite EK, Ek0 in *.
      assert (Rd : forall t0 : net H, reader_left H h_open fds sees rest_tab x t0 (s_np s) = live (n_procs t0) 1).
      { intros t0. pose proof (reader_spec H h_open (s_np s) fds sees rest_tab x n X1 X4 X7 X8 X11 X12 t0 0 (Nat.le_0_l _)) as R. rewrite Nat.add_0_r in R. rewrite R.
        destruct (Nat.eqb_spec 0 n); [lia|reflexivity]. }
      assert (Eo : see 0 1 = Some (OPipeW (s_np s))) by (rewrite (X5 0 (Nat.le_0_l _)), Nat.add_0_r; reflexivity).
      assert (Ou : ours (s_np s) (s_np s) = true) by apply Nat.leb_refl.
      assert (Nk : s_np s <> s_np s + n) by lia.
      pose proof (sims H h_wants h_event h_next h_resume h_open (s_np s) cap pipe_buf fds sees rest_tab x K (s_np s) Rd Eo Ou Nk e st0 ls _ 0 _
        (rel_start H h_wants h_event h_next h_resume h_open (s_np s) cap fds sees rest_tab x K (s_np s) Nk items e st0 h progs (fun _ => eq_refl)) E) as (W & O & R). cbn [Nat.add] in R.
      assert (Go : forall okf nls t1, (iok e = false -> okf = false) -> nstepsS (st0 okf) nls = Some t1 -> n_rd t1 = n_rd (f_net t) -> n_ok t1 = n_ok (f_net t) ->
        (forall i, nth (S i) (n_procs t1) None = nth (S i) (n_procs (f_net t)) None) -> List.length (filter prog_label ls) <= progsteps nls ->
        (if o_open (f_out t) then nth 0 (n_procs t1) None <> None /\ nth 0 (n_procs (f_net t)) None <> None else t1 = f_net t /\ nth 0 (n_procs t1) None = None) ->
        shadow t (List.length (filter prog_label ls)) okf t1).
      { intros okf nls t1 Ok E1 Y1 Y2 Y3 Y4 Y5. destruct (HF okf) as (F1 & F2 & F3 & F4).
        destruct (inv_nsteps H h_wants h_event h_next h_resume h_open (s_np s) cap fds sees rest_tab x n X1 X2 X4 X5 X6 X7 X8 X9 X10 X11 X12 RI RI_step RI_open out es (okfs okf) C T F3 F4 (okfs_ok okf Ok) nls _ _ _ _ (src_start okf X1) E1)
          as (ws' & cs' & I & Tt & RL).
        split; [exact Ok|]. split; [eapply end_gone_steps; [apply end_gone_start|exact E1]|]. split; [exact Y1|]. split; [exact Y2|]. split; [exact Y3|]. split; [exact Y5|].
        split; [|exact RL]. exists ws', cs'. split; [exact I|]. intros B. specialize (Tt B). unfold progsteps in Y4. lia. }
      destruct (o_open (f_out t)) eqn:Eop.
      - destruct R as (q & ps & r & nls & A & B & _ & _ & F). exists (iok e), (rep H (emits r (iok e) (iok e)) (f_net t)). split; [|exact O].
        eapply Go; [auto|apply B|reflexivity|reflexivity| |exact F|].
        + intros i. cbn [rep n_procs]. rewrite A. reflexivity.
        + cbn [rep n_procs]. rewrite A. split; discriminate.
      - destruct R as (okf & nls & A & B & D & F). exists okf, (f_net t). split; [|exact O]. eapply Go; [exact D|exact A|reflexivity|reflexivity|reflexivity|exact F|]. now split.
    Qed.
    Lemma src_reports : T -> forall ls t, steps (fnet_start H h items e progs) ls = Some t -> told_ok H t /\ wake H t.
    Proof.
      intros HT. assert (Nk : source_pipe (s_tab s') its <> caller_pipe (s_tab s') x) by (apply source_hyps; intros; lia). induction ls as [|l ls IH] using rev_ind; intros t.
      - intros E. injection E as <-. split; [intros i; discriminate|]. intros X. discriminate.
      - rewrite fsteps_app. destruct (steps (fnet_start H h items e progs) ls) as [t0|] eqn:E; [|discriminate]. cbn [fsteps]. destruct (fstep _ _ _ _ _ _ _ _ _ _ _ _ _ _ _ t0 l) as [t1|] eqn:E1; [|discriminate].
        intros X. injection X as <-. destruct (all_shadow ls t0 E) as (okf & t2 & (_ & _ & _ & _ & S3 & S4 & (ws' & cs' & I & _) & _) & O). eapply reports; [exact Nk|exact O| |exact E1|now apply IH].
        intros Eo. rewrite Eo in S4. destruct S4 as [S4 _]. unfold live. rewrite <- S3. destruct (nth 1 (n_procs t2) None) eqn:En; [reflexivity|].
        exfalso. apply S4. apply (i_order _ _ _ _ _ _ _ _ _ _ _ _ _ I HT 0); [|exact En]. destruct cs; [congruence|cbn; lia].
    Qed.
    Lemma src_run ls t : steps (fnet_start H h items e progs) ls = Some t ->
      (exists rest, r_sent (n_rd (f_net t)) ++ rest = out /\ (r_wopen (n_rd (f_net t)) = false -> rest = [])) /\
      (exists rl, rsteps H h_wants h_event h_next h_resume h_open true (r_init H h) rl = Some (n_rd (f_net t))) /\
      (C -> T -> List.length (rendered items) + pipe_buf <= cap -> 0 < pipe_buf -> pre -> fin -> exists ls' t', steps t ls' = Some t' /\ ended (r_out (n_rd (f_net t')))) /\
      verdict cs progs es T (f_net t) /\
      (ended (r_out (n_rd (f_net t))) -> forall i, nth i (n_procs (f_net t)) None = None) /\
      (C -> (forall i, i <= n -> es i <> None) -> List.length (filter prog_label ls) <= total cs0 n).
    Proof.
      intros E. destruct (all_shadow ls t E) as (okf & t1 & (S1 & (S2a & S2b & S2c) & S3 & S4 & S5 & S6 & (ws' & cs' & I & Tt) & RL) & O). rewrite S3 in RL.
      assert (Gone : ended (r_out (n_rd (f_net t))) -> t1 = f_net t).
      { intros X. rewrite <- S3 in X. specialize (S2a X 0). destruct (o_open (f_out t)); [now destruct S6|now destruct S6]. }
      split; [|split; [exact RL|split; [|split; [|split]]]].
      - rewrite <- S3. exists (ws' n). split; [apply I|]. rewrite (i_wopen _ _ _ _ _ _ _ _ _ _ _ _ _ I). unfold live. destruct (nth n (n_procs t1) None) eqn:En; [discriminate|].
        intros _. destruct (i_dead _ _ _ _ _ _ _ _ _ _ _ _ _ I n (le_n _) En) as [X|[X _]]; [exact X|lia].
      - intros HC HT Hs Hb D1 D2. revert E. apply source_hyps. intros X1 X2 X3 X4 X5 X6 X7 X8 X9 X10 X11 X12 EK Ek0 Hn E.
        assert (Rd : forall t0 : net H, reader_left H h_open fds sees rest_tab x t0 (s_np s) = live (n_procs t0) 1).
        { intros t0. pose proof (reader_spec H h_open (s_np s) fds sees rest_tab x n X1 X4 X7 X8 X11 X12 t0 0 (Nat.le_0_l _)) as R. rewrite Nat.add_0_r in R. rewrite R.
          destruct (Nat.eqb_spec 0 n); [lia|reflexivity]. }
        assert (Eo : see 0 1 = Some (OPipeW (s_np s))) by (rewrite (X5 0 (Nat.le_0_l _)), Nat.add_0_r; reflexivity).
        assert (Ou : ours (s_np s) (s_np s) = true) by apply Nat.leb_refl.
        assert (Nk : s_np s <> s_np s + n) by lia.
        assert (Nw : forall i, see (S i) 1 <> Some (OPipeW (s_np s))).
        { intros i E1. destruct (Nat.le_gt_cases (S i) n) as [Hi|Hi]; [rewrite X5 in E1 by exact Hi; injection E1; lia|]. rewrite nth_overflow in E1; [discriminate|]. rewrite X1. lia. }
        assert (Cl : exists l2 t2, steps t l2 = Some t2 /\ f_wr t2 = None /\ o_open (f_out t2) = false).
        { rewrite EK, Ek0 in *. eapply closes; try eassumption; [|apply le_n]. eapply fits_steps; try eassumption. apply fits_start. }
        destruct Cl as (l2 & t2 & E2 & W2 & O2).
        assert (E3 : steps (fnet_start H h items e progs) (ls ++ l2) = Some t2) by (rewrite fsteps_app, E; exact E2).
        destruct (all_shadow _ _ E3) as (okf2 & t3 & (S1' & _ & _ & _ & _ & S6' & (ws2 & cs2 & I2 & _) & _) & Oi). rewrite O2 in S6'. destruct S6' as [-> Hd].
        destruct (HF okf2) as (F1 & F2 & F3 & F4).
        destruct (to_eof H h_wants h_event h_next h_resume h_open (s_np s) cap fds sees rest_tab x n X1 X2 X4 X5 X6 X7 X8 X9 X10 X11 X12 RI RI_step RI_open out es (okfs okf2) C T F3 F4 (okfs_ok okf2 S1') ltac:(lia) D1 D2 _ _ _ HC I2)
          as (t4 & ws4 & cs4 & (l4 & G4 & E4) & I4 & Da & Ph).
        destruct (net_goes H h_wants h_event h_next h_resume h_open (s_np s) cap pipe_buf fds sees rest_tab x K (s_np s) l4 t2 t4 W2 Hd G4 E4) as [wk E5].
        assert (E6 : steps t2 (map FNet l4) = Some (mkF t4 (f_out t2) None (f_told t2) wk)) by (rewrite EK, Ek0; exact E5).
        assert (E7 : steps (fnet_start H h items e progs) ((ls ++ l2) ++ map FNet l4) = Some (mkF t4 (f_out t2) None (f_told t2) wk)) by (rewrite fsteps_app, E3; exact E6).
        destruct (concludes H h_wants h_event h_next h_resume h_open (s_np s) cap pipe_buf fds sees rest_tab x (caller_pipe (s_tab s') x) (source_pipe (s_tab s') its) ltac:(lia) (mkF t4 (f_out t2) None (f_told t2) wk)) as (l8 & t8 & E8 & G8).
        + reflexivity.
        + exact Da.
        + unfold at_eof. cbn [f_net]. now rewrite Ph.
        + cbn [f_out]. now apply Oi.
        + exact (proj2 (src_reports HT _ _ E7)).
        + exists (l2 ++ map FNet l4 ++ l8), t8. split; [|exact G8]. now rewrite fsteps_app, E2, fsteps_app, E6.
      - split.
        + intros HC i Hi Ei X. assert (En : ended (r_out (n_rd (f_net t)))) by now left. rewrite <- S3 in X, En. specialize (S2b X). specialize (S2a En). pose proof (i_status _ _ _ _ _ _ _ _ _ _ _ _ _ I HC i Hi (S2a i) Ei). congruence.
        + intros HT HE X. rewrite <- S3 in X. specialize (S2c X). pose proof (i_ok _ _ _ _ _ _ _ _ _ _ _ _ _ I HT HE). congruence.
      - intros X. rewrite <- (Gone X). apply S2a. now rewrite S3.
      - intros HC HE. specialize (Tt (conj HC HE)). lia.
    Qed.
  End Handler.
End Top.
Lemma src_give_facts cs progs items e out : List.length progs = List.length cs -> cs <> [] -> all_give progs (rendered items) true out true ->
  exists es ws cs0, es 0 = Some (iok e) /\ forall okf, facts cs (emits (rendered items) (iok e) okf :: progs) [] out es False ws cs0.
Proof.
  intros Hl Hc A. destruct (all_give_nth _ _ _ _ _ A) as (es & ws & cs0 & X & Y).
  exists (fun i => match i with 0 => Some (iok e) | S j => es j end), (fun i => match i with 0 => rendered items | S j => ws j end), (fun i => match i with 0 => S (List.length (rendered items)) | S j => cs0 j end).
  split; [reflexivity|]. intros okf. rewrite Hl in Y. unfold facts. destruct (List.length cs) as [|m] eqn:El; [destruct cs; [congruence|discriminate]|]. destruct Y as [Y1 Y2].
  split; [|split; [exact Y1|split; [destruct (es m); [discriminate|discriminate Y2]|contradiction]]].
  intros [|i] q E; cbn in E.
  - injection E as <-. split; [apply gives_emits|]. split; [discriminate|contradiction].
  - destruct (X i q E) as [X1 X2]. split; [|split; [exact X2|contradiction]]. destruct i; exact X1.
Qed.
Lemma src_do_facts cs progs items e out oks : List.length progs = List.length cs -> cs <> [] -> all_do progs (rendered items) out oks ->
  exists ws cs0, forall okf, facts cs (emits (rendered items) (iok e) okf :: progs) [] out (fun i => nth_error (iok e :: oks) i) (all_read progs (rendered items)) ws cs0.
Proof.
  intros Hl Hc A. destruct (all_do_nth _ _ _ _ A) as (ws & cs0 & X & Y & Z).
  exists (fun i => match i with 0 => rendered items | S j => ws j end), (fun i => match i with 0 => S (List.length (rendered items)) | S j => cs0 j end).
  intros okf. rewrite Hl in Y, Z. unfold facts. destruct (List.length cs) as [|m] eqn:El; [destruct cs; [congruence|discriminate]|].
  assert (S0 : forall i, i <= S m -> nth_error (iok e :: oks) i <> None) by (intros i Hi; apply nth_error_Some; cbn; lia).
  split; [|split; [exact Y|split; [now apply S0|auto]]].
  intros [|i] q E; cbn in E.
  - injection E as <-. split; [apply gives_emits|]. split; [discriminate|]. intros _ j X0. discriminate.
  - destruct (X i q E) as (ok & X1 & X2 & X3). cbn [nth_error]. rewrite X1. split; [|split; [discriminate|]].
    + assert (Hi : i < List.length progs) by (apply nth_error_Some; congruence). replace (closing (fun i0 => nth_error (iok e :: oks) i0) (S i)) with true; [destruct i; exact X2|].
      cbn [closing]. destruct (nth_error (iok e :: oks) i) eqn:Ej; [reflexivity|]. now apply S0 in Ej; [|lia].
    + intros R j Ej. injection Ej as <-. destruct i; exact (X3 R).
Qed.

(** ** cat, and a value that does not fit *)
Lemma cat_eq : cat = Reads (fun o => match o with Some b => put b cat | None => Exits true end).
Proof. now rewrite (unfold_eq cat) at 1. Qed.

Section Stuck.
  Variable H : Type.
  Variable h_wants : H -> bool.
  Variable h_event : H -> bytes -> H * bool.
  Variable h_next h_resume : H -> H * outcome.
  Variable h_open : H -> bool.
  Variables np cap pipe_buf : nat.
  Variable fds : list nat.
  Variable sees : list (nat -> option ofd).
  Variable shell : tab.
  Variable x : nat.
  Notation see i := (nth i sees (fun _ => None)).
  Notation fstepH := (fstep H h_wants h_event h_next h_resume h_open np cap pipe_buf fds sees shell x (np + 1) np).
  Notation fstepsH := (fsteps H h_wants h_event h_next h_resume h_open np cap pipe_buf fds sees shell x (np + 1) np).
  Hypothesis R0 : forall s, reader_left H h_open fds sees shell x s np = live (n_procs s) 1.
  Hypothesis R1 : forall s, reader_left H h_open fds sees shell x s (np + 1) = h_open (r_h (n_rd s)).
  Hypothesis S10 : see 1 0 = Some (OPipeR np).
  Hypothesis S11 : see 1 1 = Some (OPipeW (np + 1)).
  Record at_ (a : list N) (d : nat) (p : prog) (rest : list N) (t : fnet H) : Prop := {
    t_procs : n_procs (f_net t) = [Some (Exits true); Some p]; t_pipe : n_pipes (f_net t) np = a; t_pend : List.length (r_pend (n_rd (f_net t))) = d;
    t_open : h_open (r_h (n_rd (f_net t))) = true; t_out : r_out (n_rd (f_net t)) = []; t_wr : exists n, f_wr t = Some (n, rest) }.
  Definition reaches (t t' : fnet H) : Prop := exists ls, fstepsH t ls = Some t'.
  Lemma reaches_trans a b c : reaches a b -> reaches b c -> reaches a c.
  Proof. intros [l1 E1] [l2 E2]. exists (l1 ++ l2). rewrite fsteps_app, E1. exact E2. Qed.
  Lemma Kn : (np =? np + 1) = false. Proof. apply Nat.eqb_neq. lia. Qed.
  Lemma do_push a d p b rest t : at_ a d p (b :: rest) t -> List.length a < cap -> exists t', reaches t t' /\ at_ (a ++ [b]) d p rest t'.
  Proof.
    intros [A B C D E [n F]] Hl. eexists. split.
    - exists [FPush]. cbn [fsteps fstep]. rewrite F, R0, A. cbn [live nth negb]. unfold content. rewrite Kn, B.
      destruct (Nat.ltb_spec (List.length a) cap); [reflexivity|lia].
    - unfold push. rewrite Kn. constructor; cbn; auto; [now rewrite Nat.eqb_refl, B|eauto].
  Qed.
  Lemma do_read a d b rest t : at_ (b :: a) d cat rest t -> exists t', reaches t t' /\ at_ a d (put b cat) rest t'.
  Proof.
    intros [A B C D E [n F]]. eexists. split.
    - exists [FNet (NProc 1)]. cbn [fsteps fstep]. rewrite F. unfold nstep. cbn [may negb]. unfold proc_step. rewrite A. cbn [nth]. rewrite cat_eq, S10. unfold ours. rewrite Nat.leb_refl.
      unfold content. rewrite Kn, B. reflexivity.
    - unfold pop. rewrite Kn. constructor; cbn; auto; [now rewrite A|now rewrite Nat.eqb_refl, B|eauto].
  Qed.
  Lemma do_write a d b rest t : at_ a d (put b cat) rest t -> d < cap -> exists t', reaches t t' /\ at_ a (S d) cat rest t'.
  Proof.
    intros [A B C D E [n F]] Hd. eexists. split.
    - exists [FNet (NProc 1)]. cbn [fsteps fstep]. rewrite F. unfold nstep. cbn [may negb]. unfold proc_step. rewrite A. cbn [nth]. rewrite S11. unfold ours. destruct (Nat.leb_spec np (np + 1)); [|lia].
      rewrite R1, D. cbn [negb]. unfold content. rewrite Nat.eqb_refl. destruct (Nat.ltb_spec (List.length (r_pend (n_rd (f_net t)))) cap); [reflexivity|lia].
    - unfold push. rewrite Nat.eqb_refl. constructor; cbn; auto; [now rewrite A|rewrite app_length; cbn; lia|eauto].
  Qed.
  Hypothesis Hcap : 0 < cap.
  Lemma fill_K d : forall l rest t, at_ [] (cap - List.length l) cat (l ++ rest) t -> d = List.length l -> d <= cap -> exists t', reaches t t' /\ at_ [] cap cat rest t'.
  Proof.
    induction d as [|d IH]; intros [|b l] rest t A El Hd; try discriminate.
    - exists t. split; [now exists []|]. now rewrite Nat.sub_0_r in A.
    - cbn in El. injection El as El. destruct (do_push _ _ _ _ _ _ A) as (t1 & P1 & A1); [cbn; lia|]. destruct (do_read _ _ _ _ _ A1) as (t2 & P2 & A2).
      destruct (do_write _ _ _ _ _ A2) as (t3 & P3 & A3); [cbn [List.length] in *; lia|]. destruct (IH l rest t3) as (t4 & P4 & A4); [|exact El|lia|].
      + replace (cap - List.length l) with (S (cap - List.length (b :: l))); [exact A3|cbn [List.length] in *; lia].
      + exists t4. split; [|exact A4]. eapply reaches_trans; [exact P1|]. eapply reaches_trans; [exact P2|]. eapply reaches_trans; [exact P3|exact P4].
  Qed.
  Lemma fill_0 l : forall a p rest t, at_ a cap p (l ++ rest) t -> List.length a + List.length l <= cap -> exists t', reaches t t' /\ at_ (a ++ l) cap p rest t'.
  Proof.
    induction l as [|b l IH]; intros a p rest t A Hl.
    - exists t. split; [now exists []|]. now rewrite app_nil_r.
    - cbn in Hl. destruct (do_push _ _ _ _ _ _ A) as (t1 & P1 & A1); [lia|]. destruct (IH _ _ _ _ A1) as (t2 & P2 & A2); [rewrite app_length; cbn; lia|].
      exists t2. split; [eapply reaches_trans; eauto|]. now rewrite <- app_assoc in A2.
  Qed.
  Lemma no_step a b rest c t l : at_ a cap (put b cat) (c :: rest) t -> List.length a = cap -> fstepH t l = None.
  Proof.
    intros [A B C D E [n F]] Hl. destruct l as [nl| | | | |i|]; cbn [fstep]; rewrite ?F; auto.
    - destruct nl as [[|[|i]]|m| | |ok]; auto.
      + unfold nstep. cbn [may negb]. unfold proc_step. rewrite A. cbn [nth]. rewrite S11. unfold ours. destruct (Nat.leb_spec np (np + 1)); [|lia]. rewrite R1, D. cbn [negb].
        unfold content. rewrite Nat.eqb_refl, C. destruct (Nat.ltb_spec cap cap); [lia|reflexivity].
      + unfold nstep. cbn [may negb]. unfold proc_step. rewrite A. cbn [nth]. destruct i; reflexivity.
    - rewrite R0, A. cbn [live nth negb]. unfold content. rewrite Kn, B, Hl. destruct (Nat.ltb_spec cap cap); [lia|reflexivity].
  Qed.
  Theorem gets_stuck h v e : h_open h = true -> pipe_buf <= cap -> 2 * cap < List.length v ->
    exists ls t, fstepsH (fnet_start H h [Some v] e [cat]) ls = Some t /\ r_out (n_rd (f_net t)) = [] /\ forall l, fstepH t l = None.
  Proof.
    intros Ho Hp Hv.
    assert (B : exists t0, reaches (fnet_start H h [Some v] e [cat]) t0 /\ at_ [] 0 cat (v ++ [nl]) t0).
    { eexists. split.
      - exists [FWritable; FStart; FYield]. cbn [fsteps fstep fnet_start f_wr f_net f_out]. unfold content. rewrite Kn. cbn [net_start n_pipes List.length]. rewrite Nat.add_0_r.
        destruct (Nat.leb_spec pipe_buf cap); [|lia]. cbn. reflexivity.
      - constructor; cbn; auto. eauto. }
    destruct B as (t0 & P0 & A0).
    set (l1 := firstn cap v). set (v1 := skipn cap v). assert (Ev : v = l1 ++ v1) by (unfold l1, v1; now rewrite firstn_skipn).
    assert (L1 : List.length l1 = cap) by (unfold l1; rewrite firstn_length; lia). assert (Lv : List.length v1 = List.length v - cap) by (unfold v1; apply skipn_length).
    destruct v1 as [|b v2] eqn:Ev1; [cbn in Lv; lia|]. cbn in Lv.
    set (l2 := firstn cap v2). set (v3 := skipn cap v2). assert (Ev2 : v2 = l2 ++ v3) by (unfold l2, v3; now rewrite firstn_skipn).
    assert (L2 : List.length l2 = cap) by (unfold l2; rewrite firstn_length; lia).
    rewrite Ev, Ev2 in A0. replace ((l1 ++ b :: l2 ++ v3) ++ [nl]) with (l1 ++ b :: l2 ++ v3 ++ [nl]) in A0 by (rewrite <- app_assoc; cbn; now rewrite <- app_assoc).
    destruct (fill_K cap l1 (b :: l2 ++ v3 ++ [nl]) t0) as (t1 & P1 & A1); [now rewrite L1, Nat.sub_diag|now symmetry|lia|].
    destruct (do_push _ _ _ _ _ _ A1 Hcap) as (t2 & P2 & A2). destruct (do_read _ _ _ _ _ A2) as (t3 & P3 & A3).
    destruct (fill_0 l2 _ _ (v3 ++ [nl]) _ A3) as (t4 & P4 & A4); [cbn; lia|]. cbn [List.app] in A4.
    assert (R : reaches (fnet_start H h [Some v] e [cat]) t4).
    { eapply reaches_trans; [exact P0|]. eapply reaches_trans; [exact P1|]. eapply reaches_trans; [exact P2|]. eapply reaches_trans; [exact P3|exact P4]. }
    destruct R as [ls E]. exists ls, t4. split; [exact E|]. split; [apply A4|]. intros l. destruct (v3 ++ [nl]) as [|c r] eqn:Er; [destruct v3; discriminate|]. eapply no_step; [exact A4|exact L2].
  Qed.
End Stuck.

Section Instances.
  Variable L : limits.
  Variable pf : ofd -> bool.
  Variables logfd maxfd : nat.
  Variable cs : list (list string).
  Variables s s' : st.
  Variable its : list item.
  Variable x : nat.
  Hypothesis HL : sourced L pf logfd maxfd cs s s' its x.
  Hypothesis Hcs : cs <> [].
  Variables cap pipe_buf : nat.
  Variable items : list (option bytes).
  Variable e : iend.
  Variables progs : list prog.
  Variable out : list N.
  Hypothesis Hlen : List.length progs = List.length cs.
  Variable es : nat -> option bool.
  Variable T : Prop.
  Variable ws : nat -> list N.
  Variable cs0 : nat -> nat.
  Hypothesis HF : forall okf, facts cs (emits (rendered items) (iok e) okf :: progs) [] out es T ws cs0.
  Hypothesis He0 : es 0 = Some (iok e).
  Lemma src_bytes ls t : bytes_frun L logfd maxfd cap pipe_buf s s' its x (fnet_start byte_handler byte_init items e progs) ls = Some t ->
    (prefix (List.concat (items_of (r_out (n_rd (f_net t))))) out /\
     (ended (r_out (n_rd (f_net t))) -> List.concat (items_of (r_out (n_rd (f_net t)))) = out)) /\
    (Forall careful progs -> T -> List.length (rendered items) + pipe_buf <= cap -> 0 < pipe_buf ->
     exists ls' t', bytes_frun L logfd maxfd cap pipe_buf s s' its x t ls' = Some t' /\ ended (r_out (n_rd (f_net t')))) /\
    verdict cs progs es T (f_net t) /\
    (ended (r_out (n_rd (f_net t))) -> forall i, nth i (n_procs (f_net t)) None = None) /\
    (Forall careful progs -> (forall i, i <= List.length cs -> es i <> None) -> List.length (filter prog_label ls) <= total cs0 (List.length cs)).
  Proof.
    intros E. destruct (src_run L pf logfd maxfd cs s s' its x HL Hcs byte_handler byte_wants byte_event byte_next byte_resume bi_open BInv
      (fun r l r' I X => BInv_step true r l r' I X) b_open_w byte_init BInv_start cap pipe_buf items e progs out Hlen es T ws cs0 HF He0 ls t E) as ((rest & R1 & R2) & (rl & RS) & F & V & G & Fi).
    split; [|split; [exact (fun a b c d => F a b c d byte_D1 byte_D2)|split; [exact V|split; [exact G|exact Fi]]]].
    destruct (bytes_delivered true rl (n_rd (f_net t)) RS) as [(p & P) Q]. pose proof (BInv_steps true rl _ _ BInv_start RS) as I. split.
    - exists (p ++ rest). rewrite app_assoc, <- P. now symmetry.
    - intros X. rewrite (Q X). destruct (b_end _ I X) as [X1 _]. destruct (b_eof _ I X1) as [_ X2]. rewrite (R2 X2) in R1. now rewrite app_nil_r in R1.
  Qed.
  Lemma src_lines ls t : lines_frun L logfd maxfd cap pipe_buf s s' its x (fnet_start line_handler line_init items e progs) ls = Some t ->
    (forall lines, is_lines out lines -> prefix (items_of (r_out (n_rd (f_net t)))) lines /\
     (ended (r_out (n_rd (f_net t))) -> items_of (r_out (n_rd (f_net t))) = lines)) /\
    (Forall careful progs -> T -> List.length (rendered items) + pipe_buf <= cap -> 0 < pipe_buf ->
     exists ls' t', lines_frun L logfd maxfd cap pipe_buf s s' its x t ls' = Some t' /\ ended (r_out (n_rd (f_net t')))) /\
    verdict cs progs es T (f_net t) /\
    (ended (r_out (n_rd (f_net t))) -> forall i, nth i (n_procs (f_net t)) None = None) /\
    (Forall careful progs -> (forall i, i <= List.length cs -> es i <> None) -> List.length (filter prog_label ls) <= total cs0 (List.length cs)).
  Proof.
    intros E. destruct (src_run L pf logfd maxfd cs s s' its x HL Hcs line_handler line_wants line_event line_next line_next li_open LInv
      (fun r l r' I X => LInv_step true r l r' I X) l_open_w line_init LInv_start cap pipe_buf items e progs out Hlen es T ws cs0 HF He0 ls t E) as ((rest & R1 & R2) & (rl & RS) & F & V & G & Fi).
    split; [|split; [exact (fun a b c d => F a b c d (fun r I P => line_D1 _ r I (le_n _) P) (fun r I P W => line_D2 _ r I (le_n _) P W))|split; [exact V|split; [exact G|exact Fi]]]].
    intros lines HLs. pose proof (LInv_steps true rl _ _ LInv_start RS) as I.
    destruct (li_eof (r_h (n_rd (f_net t)))) eqn:Ee.
    - destruct (l_eof _ I Ee) as [_ W]. rewrite (R2 W), app_nil_r in R1. rewrite <- R1 in HLs. apply (lines_delivered true rl); [exact RS|exact HLs].
    - split; [|intros X; destruct (l_end _ I X); congruence].
      destruct (l_data _ I) as [D|[D1 _]]; [|congruence].
      assert (D' : joined (items_of (r_out (n_rd (f_net t)))) ++ (li_buf (r_h (n_rd (f_net t))) ++ r_pend (n_rd (f_net t))) ++ rest = out) by (rewrite <- R1, <- D, !app_assoc; reflexivity).
      destruct HLs as [Hf [HE|[HE _]]]; fold (joined lines) in HE; rewrite <- D' in HE.
      + eapply joined_prefix; [apply I|exact Hf|]. symmetry. exact HE.
      + eapply joined_prefix; [apply I|exact Hf|]. rewrite <- app_assoc in HE. symmetry. exact HE.
  Qed.
End Instances.

Section StuckTop.
  Variable L : limits.
  Variable pf : ofd -> bool.
  Variables logfd maxfd : nat.
  Variable c : list string.
  Variables s s' : st.
  Variable its : list item.
  Variable x : nat.
  Hypothesis HL : sourced L pf logfd maxfd [c] s s' its x.
  Variables cap pipe_buf : nat.
  Hypothesis Hcap : 0 < cap.
  Hypothesis Hpb : pipe_buf <= cap.
  Lemma stuck_top (H : Type) h_wants h_event h_next h_resume (h_open : H -> bool) h v e : h_open h = true -> 2 * cap < List.length v ->
    exists ls t, fsteps H h_wants h_event h_next h_resume h_open (s_np s) cap pipe_buf (proc_fds logfd maxfd) (map (item_has L logfd maxfd (s_tab s')) its)
      (without (s_tab s') (function_fds its)) x (caller_pipe (s_tab s') x) (source_pipe (s_tab s') its) (fnet_start H h [Some v] e [cat]) ls = Some t /\
      r_out (n_rd (f_net t)) = [] /\
      forall l, fstep H h_wants h_event h_next h_resume h_open (s_np s) cap pipe_buf (proc_fds logfd maxfd) (map (item_has L logfd maxfd (s_tab s')) its)
        (without (s_tab s') (function_fds its)) x (caller_pipe (s_tab s') x) (source_pipe (s_tab s') its) t l = None.
  Proof.
    intros Ho Hv. apply (source_hyps L pf logfd maxfd [c] s s' its x HL); [discriminate|]. cbn [List.length].
    intros X1 X2 X3 X4 X5 X6 X7 X8 X9 X10 X11 X12 EK Ek0 Hn. rewrite EK, Ek0.
    pose proof (fun t0 i => reader_spec H h_open (s_np s) (proc_fds logfd maxfd) _ (without (s_tab s') (function_fds its)) x 1 X1 X4 X7 X8 X11 X12 t0 i) as R.
    apply gets_stuck; auto.
    - intros t0. specialize (R t0 0 (Nat.le_0_l _)). rewrite Nat.add_0_r in R. rewrite R. reflexivity.
    - intros t0. rewrite (R t0 1 (le_n _)). reflexivity.
    - rewrite (X4 0) by lia. now rewrite Nat.add_0_r.
  Qed.
End StuckTop.
