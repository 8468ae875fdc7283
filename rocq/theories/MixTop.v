(** From a started pipeline of programs and functions to its network. *)
From Verif Require Import Py RedirModel Os PerformModel PerformSpec PerformProofs RunModel RunSpec RunTopSpec RunEnds RunTop RunMore RunStarted RunFinal IterModel IterSpec IterProofs NetModel NetSpec NetProofs NetTop SrcModel SrcTop MixModel MixSpec MixProofs.

(** ** Wiring *)
Lemma wire_fun_piped a np nt : wire (PFun true) (env3 a WPipe) np nt = mkWired [LFun (Some a) (Some (OPipeW np))] None (Some np) (S np) (S nt).
Proof. reflexivity. Qed.
Lemma mixed_snoc c cs d : mixed_line c (cs ++ [d]) = PPipe (mixed_line c cs) (next_stage d).
Proof. unfold mixed_line. now rewrite fold_left_app. Qed.
Definition leaf_at (o0 : ofd) (np nt i : nat) (c : stage) : leaf :=
  match c with
  | StCmd ws => LProc (io_of (io3 (match i with 0 => o0 | S j => OPipeR (np + j) end) (OPipeW (np + i)) (OTmp (nt + i)))) (map WWord ws)
  | StFun => LFun (match i with 0 => None | S j => Some (OPipeR (np + j)) end) (Some (OPipeW (np + i)))
  end.
Lemma wire_mixed o0 np nt c : forall cs,
  let W := wire (mixed_line c cs) (env3 o0 WPipe) np nt in
  w_out W = Some (np + List.length cs) /\ w_np W = np + S (List.length cs) /\ w_nt W = nt + S (List.length cs) /\
  List.length (w_leaves W) = S (List.length cs) /\
  forall i d, nth_error (c :: cs) i = Some d -> nth_error (w_leaves W) i = Some (leaf_at o0 np nt i d).
Proof.
  induction cs as [|d cs IH] using rev_ind; cbv zeta.
  - unfold mixed_line. cbn [fold_left].
    assert (E : wire (first_stage c) (env3 o0 WPipe) np nt = mkWired [leaf_at o0 np nt 0 c] None (Some np) (S np) (S nt)).
    { destruct c as [ws|]; cbn [first_stage leaf_at]; rewrite !Nat.add_0_r; [apply wire_words_pipe|apply wire_fun_pipe]. }
    rewrite E. cbn [w_out w_np w_nt w_leaves List.length]. split; [f_equal; lia|]. split; [lia|]. split; [lia|]. split; [reflexivity|].
    intros [|i] d Ed; [cbn in Ed; injection Ed as <-; reflexivity|]. cbn in Ed. destruct i; discriminate.
  - cbv zeta in IH. destruct IH as (Hout & Hnp & Hnt & Hlen & Hl). rewrite mixed_snoc, wire_PPipe. cbv zeta.
    change (ask_stdout (env3 o0 WPipe)) with (env3 o0 WPipe). rewrite Hout.
    change (feed_stdin (env3 o0 WPipe) (np + List.length cs)) with (env3 (OPipeR (np + List.length cs)) WPipe).
    assert (E : wire (next_stage d) (env3 (OPipeR (np + List.length cs)) WPipe) (w_np (wire (mixed_line c cs) (env3 o0 WPipe) np nt)) (w_nt (wire (mixed_line c cs) (env3 o0 WPipe) np nt)) =
      mkWired [leaf_at o0 np nt (S (List.length cs)) d] None (Some (np + S (List.length cs))) (S (np + S (List.length cs))) (S (nt + S (List.length cs)))).
    { rewrite Hnp, Hnt. destruct d as [ws|]; cbn [next_stage leaf_at]; [apply wire_words_pipe|apply wire_fun_piped]. }
    rewrite E. cbn [w_leaves w_out w_np w_nt]. rewrite !app_length, Hlen. cbn [List.length].
    split; [f_equal; lia|]. split; [lia|]. split; [lia|]. split; [lia|].
    intros i d' Ed. change (c :: cs ++ [d]) with ((c :: cs) ++ [d]) in Ed. destruct (Nat.lt_ge_cases i (S (List.length cs))) as [Hi|Hi].
    + rewrite nth_error_app1 in Ed by exact Hi. rewrite nth_error_app1 by lia. now apply Hl.
    + rewrite nth_error_app2 in Ed by exact Hi. assert (i = S (List.length cs)) as ->.
      { assert (i - List.length (c :: cs) < 1) by (apply (nth_error_Some [d]); congruence). cbn in *. lia. }
      cbn [List.length] in Ed. rewrite Nat.sub_diag in Ed. injection Ed as <-. rewrite nth_error_app2 by lia. rewrite Hlen, Nat.sub_diag. reflexivity.
Qed.
Lemma clean_stage can i o d : clean can i o (next_stage d) /\ clean can i o (first_stage d).
Proof.
  destruct d as [ws|]; cbn [next_stage first_stage]; [|split; exact Logic.I].
  assert (W : clean can i o (PCmd (map AWord ws))) by (cbn; induction ws; cbn; auto). auto.
Qed.
Lemma clean_mixed can c cs piped : clean can INone piped (mixed_line c cs).
Proof.
  revert piped. induction cs as [|d cs IH] using rev_ind; intros piped; [apply clean_stage|]. rewrite mixed_snoc. cbn [clean]. split; [apply IH|apply clean_stage].
Qed.
Lemma set_nth_length' {A} (l : list A) : forall i v, List.length (set_nth l i v) = List.length l.
Proof. induction l as [|y l IH]; intros [|i] v; cbn; auto. Qed.
Lemma refers_set t f m : refers (set_nth t f None) m = if Nat.eqb m f then None else refers t m.
Proof. change (set_nth t f None) with (without t [f]). apply refers_without. Qed.
Lemma refers_without_all t l m : refers (without t l) m = if existsb (Nat.eqb m) l then None else refers t m.
Proof.
  induction l as [|f l IH]; [reflexivity|]. cbn [without fold_right existsb]. change (fold_right (fun n t => set_nth t n None) t l) with (without t l). rewrite refers_set, IH. now destruct (Nat.eqb m f).
Qed.

Section Top.
  Variable L : limits.
  Variable pf : ofd -> bool.
  Variables logfd maxfd : nat.
  Variable c : stage.
  Variable cs : list stage.
  Variables s s' : st.
  Variable its : list item.
  Variable x : nat.
  Hypothesis HL : mixed L pf logfd maxfd c cs s s' its x.
  Notation n := (List.length cs).
  Notation sees := (map (item_has L logfd maxfd (s_tab s')) its).
  Notation see i := (nth i sees (fun _ => None)).
  Notation fds := (proc_fds logfd maxfd).
  Notation rest_tab := (without (s_tab s') (function_fds its)).

  Lemma mixed_facts : exists o0, refers (s_tab s) 0 = Some o0 /\ List.length its = S n /\
    (forall i d, nth_error (c :: cs) i = Some d ->
       see i 0 = match i with 0 => match d with StCmd _ => Some o0 | StFun => None end | S j => Some (OPipeR (s_np s + j)) end /\
       see i 1 = Some (OPipeW (s_np s + i)) /\ (see i 2 = None \/ exists k, see i 2 = Some (OTmp k)) /\ forall m, 2 < m -> m < maxfd -> m <> logfd -> see i m = None) /\
    refers (s_tab s') x = Some (OPipeR (s_np s + n)) /\ ~ In x (function_fds its) /\
    (forall m, m <> x -> ~ In m (function_fds its) -> tget (s_tab s') m = tget (s_tab s) m).
  Proof.
    destruct HL as (A0 & A1 & A2 & Old & (ret & Es & Ec) & Hlog & Hmax & Hroom).
    destruct (refers (s_tab s) 0) as [o0|] eqn:E0; [|congruence]. destruct (refers (s_tab s) 1) as [o1|] eqn:E1; [|congruence].
    exists o0. split; [reflexivity|].
    pose proof (start_correct L pf true (mixed_line c cs) s o0 o1 logfd maxfd E0 E1 A2 (clean_mixed _ _ _ _)) as S2. rewrite Es in S2. cbn zeta in S2.
    destruct S2 as (F & (xx & k & Ex & Ek & Rx) & ND & _ & Same). rewrite Ec in Ex. injection Ex as <-.
    change (top_env o0 o1 true) with (env3 o0 WPipe) in *.
    destruct (wire_mixed o0 (s_np s) (s_nt s) c cs) as (Wo & _ & _ & Wl & WS). cbv zeta in *. rewrite Wo in Ek. injection Ek as <-.
    pose proof (F2_length _ _ _ F) as FL. rewrite Wl in FL. split; [now symmetry|]. rewrite Ec in ND, Same. cbn [List.app] in ND, Same.
    split; [|split; [exact Rx|split; [now inversion ND|]]].
    - intros i d Ed. destruct (F2_nth _ _ _ F _ _ (WS i d Ed)) as (it & Ii & C).
      assert (Es' : see i = item_has L logfd maxfd (s_tab s') it).
      { assert (i < List.length its) by (apply nth_error_Some; congruence). rewrite (nth_indep _ _ (item_has L logfd maxfd (s_tab s') it)) by (rewrite map_length; lia). rewrite map_nth. now rewrite (nth_error_nth _ _ _ Ii). }
      rewrite Es'. destruct d as [ws|]; cbn [leaf_at] in C.
      + destruct it as [rs t argv|]; [|destruct C]. destruct (Hroom rs t argv (nth_error_In _ _ Ii)) as [R M].
        destruct (C R M) as (_ & _ & K1 & K2). apply words_connected in K1. subst argv. rewrite words_numbers in K2.
        assert (P : forall m, m < maxfd -> m <> logfd -> program_fd L logfd maxfd rs t m = io_of (io3 (match i with 0 => o0 | S j => OPipeR (s_np s + j) end) (OPipeW (s_np s + i)) (OTmp (s_nt s + i))) m) by (intros m Hm1 Hm2; apply K2; auto).
        cbn [item_has item_sees]. split; [rewrite P by lia; destruct i; reflexivity|]. split; [rewrite P by lia; reflexivity|]. split; [right; exists (s_nt s + i); rewrite P by lia; reflexivity|].
        intros m M1 M2 M3. rewrite P by lia. destruct m as [|[|[|m] ] ]; try lia. reflexivity.
      + destruct it as [|infd outfd frs]; [destruct C|]. destruct C as [C1 C2]. cbn [item_has].
        split; [destruct i, infd; (contradiction || exact C1 || reflexivity)|]. split; [exact C2|]. split; [now left|]. intros m M1 _ _. destruct m as [|[|m] ]; [lia|lia|reflexivity].
    - intros m M1 M2. apply Same. cbn. intuition congruence.
  Qed.
  Variable codes : list code.
  Hypothesis Hcodes : Forall2 runs_as (c :: cs) codes.
  Lemma mixed_hyps (P : Prop) :
    (List.length sees = S n -> List.length codes = S n ->
     (forall k, see 0 0 = Some (OPipeR k) -> k < s_np s) ->
     (forall f, nth 0 codes (CProg (Exits true)) = CFun f -> see 0 0 = None) -> (see 0 0 = None -> exists f, nth 0 codes (CProg (Exits true)) = CFun f) ->
     (forall j, j < n -> see (S j) 0 = Some (OPipeR (s_np s + j))) ->
     (forall i, i <= n -> see i 1 = Some (OPipeW (s_np s + i))) ->
     (forall i m k, i <= n -> In m fds -> s_np s <= k -> see i m = Some (OPipeW k) -> k = s_np s + i) ->
     (forall i m k, i <= n -> In m fds -> s_np s <= k -> see i m = Some (OPipeR k) -> exists j, i = S j /\ k = s_np s + j) ->
     In 0 fds -> In 1 fds ->
     (forall m k, refers rest_tab m = Some (OPipeW k) -> k < s_np s) ->
     (forall m k, refers rest_tab m = Some (OPipeR k) -> s_np s <= k -> m = x) ->
     refers rest_tab x = Some (OPipeR (s_np s + n)) ->
     caller_pipe (s_tab s') x = s_np s + n -> P) -> P.
  Proof.
    destruct mixed_facts as (o0 & E0 & Li & Sees & Rx & Nx & Same). destruct HL as (_ & _ & _ & Old & _ & Hlog & Hmax & _). intros Go.
    assert (Lc : List.length codes = S n) by (symmetry; exact (F2_length _ _ _ Hcodes)).
    assert (Ne : forall l m, existsb (Nat.eqb m) l = false <-> ~ In m l).
    { intros l m. rewrite <- not_true_iff_false, existsb_exists. split; intros X Y; apply X.
      - exists m. split; [exact Y|apply Nat.eqb_refl].
      - destruct Y as (y & A & B). apply Nat.eqb_eq in B. now subst y. }
    assert (Old' : forall m o, m <> x -> refers rest_tab m = Some o -> is_end o -> pipe_no o < s_np s).
    { intros m o Hm Er He. rewrite refers_without_all in Er. destruct (existsb (Nat.eqb m) (function_fds its)) eqn:Ef; [discriminate|]. apply Ne in Ef. apply (Old m o); [|exact He]. unfold refers in *. now rewrite <- (Same m Hm Ef). }
    assert (Rx' : refers rest_tab x = Some (OPipeR (s_np s + n))).
    { rewrite refers_without_all. apply Ne in Nx. now rewrite Nx. }
    assert (Ex : forall i, i <= n -> exists d, nth_error (c :: cs) i = Some d).
    { intros i Hi. destruct (nth_error (c :: cs) i) eqn:E; [eauto|]. apply nth_error_None in E. cbn in E. lia. }
    assert (Cases : forall i m o, i <= n -> In m fds -> see i m = Some o -> (i = 0 /\ o = o0) \/ (exists j, i = S j /\ o = OPipeR (s_np s + j)) \/ o = OPipeW (s_np s + i) \/ exists k, o = OTmp k).
    { intros i m o Hi Hm Es. apply fds_spec in Hm as [Hm1 Hm2]. destruct (Ex i Hi) as [d Ed]. destruct (Sees i d Ed) as (B0 & B1 & B2 & B3). destruct m as [|[|[|m] ] ].
      - destruct i as [|j]; [left|right; left; exists j; split; [reflexivity|congruence] ]. split; [reflexivity|]. destruct d; congruence.
      - right. right. left. congruence.
      - right. right. right. destruct B2 as [B2|[k B2] ]; [congruence|]. exists k. congruence.
      - rewrite B3 in Es by lia. discriminate. }
    assert (C0 : runs_as c (nth 0 codes (CProg (Exits true)))) by (inversion Hcodes; subst; assumption).
    destruct (Sees 0 c eq_refl) as (S00 & _).
    apply Go.
    - rewrite map_length. exact Li.
    - exact Lc.
    - intros k E. rewrite S00 in E. destruct c; [|discriminate]. injection E as ->. apply (Old 0 _ E0). exact Logic.I.
    - intros f Ef. rewrite Ef in C0. destruct c; [destruct C0|exact S00].
    - intros E. destruct (nth 0 codes _) as [p|f]; [|eauto]. destruct c; [congruence|destruct C0].
    - intros j Hj. destruct (Ex (S j) ltac:(lia)) as [d Ed]. exact (proj1 (Sees (S j) d Ed)).
    - intros i Hi. destruct (Ex i Hi) as [d Ed]. exact (proj1 (proj2 (Sees i d Ed))).
    - intros i m k Hi Hm Hk E. destruct (Cases i m _ Hi Hm E) as [ [-> X]|[ [j [_ X] ]|[X|[k' X] ] ] ]; [|discriminate|congruence|discriminate].
      subst o0. pose proof (Old 0 _ E0 Logic.I) as Y. cbn in Y. lia.
    - intros i m k Hi Hm Hk E. destruct (Cases i m _ Hi Hm E) as [ [-> X]|[ [j [-> X] ]|[X|[k' X] ] ] ]; [|exists j; split; [reflexivity|congruence]|discriminate|discriminate].
      subst o0. pose proof (Old 0 _ E0 Logic.I) as Y. cbn in Y. lia.
    - apply fds_spec. lia.
    - apply fds_spec. lia.
    - intros m k E. destruct (Nat.eq_dec m x) as [->|Nm]; [congruence|]. apply (Old' m _ Nm E). exact Logic.I.
    - intros m k E Hk. destruct (Nat.eq_dec m x) as [->|Nm]; [reflexivity|]. pose proof (Old' m _ Nm E Logic.I) as X. cbn in X. lia.
    - exact Rx'.
    - unfold caller_pipe. now rewrite Rx.
  Qed.
  (** ** The network *)
  Section Handler.
    Variable H : Type.
    Variable h_wants : H -> bool.
    Variable h_event : H -> bytes -> H * bool.
    Variable h_next h_resume : H -> H * outcome.
    Variable h_open : H -> bool.
    Variable RI : rstate H -> Prop.
    Hypothesis RI_step : forall r l r', RI r -> rstep H h_wants h_event h_next h_resume h_open true r l = Some r' -> RI r'.
    Hypothesis RI_open : forall r, RI r -> h_open (r_h r) = false -> r_wopen r = false.
    Hypothesis RI_eof : forall r, RI r -> r_phase r = PAtEof -> r_wopen r = false.
    Variable h : H.
    Hypothesis RI_start : RI (r_init H h).
    Variables cap pipe_buf : nat.
    Variables inp out : list N.
    Variable oks : nat -> bool.
    Variable T : Prop.
    Variable m : nat.
    Variable ws : nat -> list N.
    Variable cs0 : nat -> nat.
    Hypothesis Hin : can_read codes inp.
    Hypothesis HF : forall i, i <= n -> code_ok T m (cs0 i) (nth i codes (CProg (Exits true))) (match i with 0 => inp | S j => ws j end) (ws i) (oks i).
    Hypothesis HT : T -> forall j, j < n -> match nth (S j) codes (CProg (Exits true)) with CProg p => reads_all p (ws j) | CFun f => fasks f (ws j) end.
    Hypothesis Ho : ws n = out.
    Notation start := (mix_start H sees h codes inp).
    Notation steps := (msteps H h_wants h_event h_next h_resume h_open (s_np s) cap pipe_buf fds sees rest_tab x (caller_pipe (s_tab s') x)).
    Notation pre := (forall r, RI r -> r_pend r <> [] -> exists r', drains H h_wants h_event h_next h_resume h_open r r' /\ List.length (r_pend r') < List.length (r_pend r)).
    Notation fin := (forall r, RI r -> r_pend r = [] -> r_wopen r = false -> exists r', drains H h_wants h_event h_next h_resume h_open r r' /\ r_phase r' = PAtEof).
    Lemma mix_run : exists N, forall ls t, steps start ls = Some t ->
      (exists rest, r_sent (m_rd t) ++ rest = out /\ (r_wopen (m_rd t) = false -> rest = [])) /\
      (exists rl, rsteps H h_wants h_event h_next h_resume h_open true (r_init H h) rl = Some (m_rd t)) /\
      (T -> 3 * m <= pipe_buf -> pipe_buf <= cap -> 1 <= cap -> pre -> fin -> exists ls' t', steps t ls' = Some t' /\ ended (r_out (m_rd t'))) /\
      (ended (r_out (m_rd t)) -> forall i, match nth i (m_items t) (SProc None) with SProc p => p = None | SFun g => g_open g = false /\ g_done g <> None end) /\
      (T -> (In GStop (r_out (m_rd t)) -> forall i, i <= n -> oks i = true) /\ (In GFailed (r_out (m_rd t)) -> exists i, i <= n /\ oks i = false)) /\
      (T -> List.length (filter counts ls) <= N).
    Proof.
      apply mixed_hyps. intros X1 Lc X2 X3 X3' X4 X5 X6 X7 X8 X9 X10 X11 X12 EK.
      exists (total (size H (s_np s) start ws cs0) n). intros ls t E. rewrite EK in *.
      assert (I0 : minv H (s_np s) sees n RI out oks T m start ws cs0).
      { eapply inv_start; eauto. intros S0. destruct (X3' S0) as [f Ef]. unfold can_read in Hin. destruct codes as [|[p|f'] codes']; [discriminate|discriminate|exact Hin]. }
      destruct (inv_steps H h_wants h_event h_next h_resume h_open (s_np s) cap pipe_buf fds sees rest_tab x n X1 X2 X4 X5 X6 X7 X8 X9 X10 X11 X12 RI RI_step RI_open RI_eof out oks T m ls _ _ _ _ I0 E)
        as (ws' & cs' & I & Tt & RL).
      split; [|split; [exact RL|split; [|split; [|split] ] ] ].
      - exists (ws' n). split; [apply I|]. rewrite (v_wopen _ _ _ _ _ _ _ _ _ _ _ _ I). intros W.
        destruct (v_dead _ _ _ _ _ _ _ _ _ _ _ _ I n (le_n _) W) as [X|[X _] ]; [exact X|lia].
      - intros ht Hm Hc H1 D1 D2. refine (finishes H h_wants h_event h_next h_resume h_open (s_np s) cap pipe_buf fds sees rest_tab x n X1 X2 X4 X5 X6 X7 X8 X9 X10 X11 X12 RI RI_step RI_open RI_eof out oks T m Hm Hc H1 ht D1 D2 t ws' cs' I _).
        assert (Fi : forall l1 t1, steps start l1 = Some t1 -> fits H (s_np s) cap n m t1).
        { induction l1 as [|l l1 IH] using rev_ind; intros t1 E1.
          - injection E1 as <-. intros i g Hi Ei Eo. rewrite (start_item H sees n X1 h codes inp i Lc Hi) in Ei. destruct (nth i codes _) as [p|f]; [discriminate|]. injection Ei as <-. unfold pend, mcontent. cbn. destruct (_ =? _); cbn; lia.
          - rewrite EK, msteps_app in E1. match type of E1 with match ?M with _ => _ end = _ => destruct M as [t0|] eqn:E2; [|discriminate] end. cbn [msteps] in E1. destruct (mstep _ _ _ _ _ _ _ _ _ _ _ _ _ _ t0 l) as [t2|] eqn:E3; [|discriminate]. injection E1 as <-.
            destruct (inv_steps H h_wants h_event h_next h_resume h_open (s_np s) cap pipe_buf fds sees rest_tab x n X1 X2 X4 X5 X6 X7 X8 X9 X10 X11 X12 RI RI_step RI_open RI_eof out oks T m l1 _ _ _ _ I0 E2) as (ws2 & cs2 & I2 & _).
            refine (fits_step H h_wants h_event h_next h_resume h_open (s_np s) cap pipe_buf fds sees rest_tab x n X1 X2 X4 X5 X7 X8 X11 X12 RI RI_open out oks T m Hm Hc H1 ht t0 ws2 cs2 l t2 I2 _ E3). apply IH. now rewrite EK. }
        apply (Fi ls). now rewrite EK.
      - intros X i. destruct (Nat.le_gt_cases i n) as [Hi|Hi]; [|rewrite nth_overflow; [reflexivity|rewrite (v_len _ _ _ _ _ _ _ _ _ _ _ _ I); exact Hi] ].
        pose proof (v_end _ _ _ _ _ _ _ _ _ _ _ _ I X i Hi) as W. destruct (nth i (m_items t) (SProc None)) as [ [p|]|g] eqn:Eg; [discriminate|reflexivity|].
        cbn in W. split; [exact W|]. pose proof (v_fun _ _ _ _ _ _ _ _ _ _ _ _ I i g Eg) as Fo. rewrite (fo_done _ _ Fo) in W. destruct (g_done g); [discriminate|discriminate].
      - intros ht. split.
        + intros X i Hi. destruct (oks i) eqn:Ei; [reflexivity|]. pose proof (v_ok2 _ _ _ _ _ _ _ _ _ _ _ _ I ht i Hi (v_end _ _ _ _ _ _ _ _ _ _ _ _ I (or_introl X) i Hi) Ei) as Y. rewrite (v_stop _ _ _ _ _ _ _ _ _ _ _ _ I X) in Y. discriminate.
        + intros X. destruct (v_ok1 _ _ _ _ _ _ _ _ _ _ _ _ I ht (v_failed _ _ _ _ _ _ _ _ _ _ _ _ I X)) as (i & A & _ & B). eauto.
      - intros ht. specialize (Tt ht). lia.
    Qed.
  End Handler.
End Top.

(** ** From what is computed to the hypotheses of the network *)
Lemma cut_line l r : ~ In nl l -> cut (l ++ nl :: r) = Some (l, r).
Proof.
  intros N. replace (l ++ nl :: r) with ((l ++ [nl]) ++ r) by (rewrite <- app_assoc; reflexivity).
  assert (X : In nl (l ++ [nl])) by (apply in_or_app; right; now left).
  rewrite cut_more by now apply has_nl_In. pose proof (split1_spec _ X) as Y. destruct (split1 (l ++ [nl])) as [l' r']. destruct Y as [Y N'].
  assert (Z : l = l' /\ r' = []).
  { clear X. revert l' Y N'. induction l as [|a l IH]; intros [|b l'] Y N'; cbn in Y.
    - split; [reflexivity|]. congruence.
    - injection Y as <- Y. destruct N'. now left.
    - injection Y as -> Y. destruct N. now left.
    - injection Y as <- Y. destruct (IH (fun h => N (or_intror h)) l' Y (fun h => N' (or_intror h))) as [-> ->]. split; reflexivity. }
  destruct Z as [-> ->]. reflexivity.
Qed.
Lemma cut_last l : ~ In nl l -> l <> [] -> cut l = Some (l, []).
Proof.
  intros N E. unfold cut. destruct l as [|a l0] eqn:El; [congruence|]. rewrite <- El in *. replace (has_nl l) with false by (symmetry; now apply has_nl_not).
  pose proof (cut_line l [] N) as X. unfold cut in X. destruct (l ++ [nl]) eqn:Y; [destruct l; discriminate|]. rewrite <- Y in *.
  replace (has_nl (l ++ [nl])) with true in X; [exact X|]. symmetry. apply has_nl_In, in_or_app. right. now left.
Qed.
Lemma is_lines_nil d : is_lines d [] -> d = [].
Proof. intros [_ [X|[X _] ] ]; [now symmetry|]. cbn in X. destruct d; discriminate. Qed.
Lemma is_lines_cons d l ls : is_lines d (l :: ls) -> exists r, cut d = Some (l, r) /\ is_lines r ls.
Proof.
  intros [F X]. inversion F as [|? ? N F']; subst. cbn [map List.concat] in X. fold (joined ls) in X. destruct X as [X|(X & Ne & La)].
  - exists (joined ls). rewrite <- X, <- app_assoc. split; [now apply cut_line|]. split; [exact F'|now left].
  - destruct ls as [|a ls].
    + cbn in X. rewrite app_nil_r in X. apply app_inj_tail in X as [<- _]. exists []. split; [now apply cut_last|]. split; [constructor|now left].
    + assert (Y : exists r, joined (a :: ls) = r ++ [nl]).
      { clear X F F' N l d Ne La. revert a. induction ls as [|b ls IH]; intros a.
        - exists a. unfold joined. cbn. now rewrite app_nil_r.
        - destruct (IH b) as [r R]. exists ((a ++ [nl]) ++ r). change (joined (a :: b :: ls)) with ((a ++ [nl]) ++ joined (b :: ls)). now rewrite R, app_assoc. }
      destruct Y as [r R]. rewrite R, app_assoc in X. apply app_inj_tail in X as [<- _].
      assert (Nr : r <> []) by (intros ->; rewrite app_nil_r, last_last in La; congruence).
      exists r. rewrite <- app_assoc. split; [now apply cut_line|]. split; [exact F'|]. right. fold (joined (a :: ls)). split; [exact R|]. split; [exact Nr|].
      intros Y. apply La. rewrite <- Y. destruct (exists_last Nr) as (r0 & z & ->). now rewrite app_assoc, !last_last.
Qed.
Lemma fdoes_fruns (P : Prop) m f lines vals e : fdoes f lines vals e -> (P -> forall b, In (Some b) vals -> List.length b < m) ->
  forall inp, is_lines inp lines -> exists c, fruns P m c f inp (rendered vals) (fok e).
Proof.
  induction 1 as [e lines|v k lines vals e D IH|k l lines vals e D IH|k vals e D IH]; intros Sh inp Li.
  - exists 1. apply fr_end.
  - destruct (IH (fun p b h => Sh p b (or_intror h)) inp Li) as [c R]. exists (S c). destruct v as [b|].
    + apply fr_give; [|exact R]. intros p. apply (Sh p b). now left.
    + now apply fr_none.
  - destruct (is_lines_cons _ _ _ Li) as (r & E & Lr). destruct (IH Sh r Lr) as [c R]. exists (S c). eapply fr_line; eauto.
  - apply is_lines_nil in Li. subst inp. destruct (IH Sh [] (conj (Forall_nil _) (or_introl eq_refl))) as [c R]. exists (S c). now apply fr_over.
Qed.
Lemma asks_fasks f lines : asks_all f lines -> forall inp, is_lines inp lines -> fasks f inp.
Proof.
  induction 1 as [k|k l lines A IH|v k lines A IH]; intros inp Li.
  - apply is_lines_nil in Li. subst inp. apply fas_over.
  - destruct (is_lines_cons _ _ _ Li) as (r & E & Lr). eapply fas_line; eauto.
  - apply fas_give. now apply IH.
Qed.
Lemma fdoes_fun f lines v1 e1 : fdoes f lines v1 e1 -> forall v2 e2, fdoes f lines v2 e2 -> v1 = v2 /\ e1 = e2.
Proof.
  induction 1 as [e lines|v k lines vals e D IH|k l lines vals e D IH|k vals e D IH]; intros v2 e2 D2; inversion D2; subst; auto.
  destruct (IH _ _ ltac:(eassumption)) as [-> ->]. auto.
Qed.
Lemma cdoes_fun2 c inp o1 k1 o2 k2 : cdoes c inp o1 k1 -> cdoes c inp o2 k2 -> o1 = o2 /\ k1 = k2.
Proof.
  intros A B. destruct A as [p inp o1 k1 A|f inp lines vals e A1 A2]; inversion B as [? ? ? ? B1|? ? lines' vals' e' B1 B2]; subst.
  - eapply does_fun; eauto.
  - rewrite (is_lines_unique _ _ _ A1 B1) in *. destruct (fdoes_fun _ _ _ _ A2 _ _ B2) as [-> ->]. auto.
Qed.
Lemma cdoes_ok (P : Prop) m c inp o ok : cdoes c inp o ok -> (P -> cshort m c inp) -> exists k, code_ok P m k c inp o ok.
Proof.
  intros A Sh. destruct A as [p inp o ok A|f inp lines vals e A1 A2].
  - apply does_gives, gives_givesn in A as [k A]. exists k. exact A.
  - destruct (fdoes_fruns P m f lines vals e A2) with (inp := inp) as [k R]; [|exact A1|exists k; exact R].
    intros p b Hb. exact (Sh p lines vals e b A1 A2 Hb).
Qed.
Lemma all_cdo_nth (P : Prop) m codes : forall inp o oks, all_cdo codes inp o oks -> (P -> well_fed m codes inp) -> codes <> [] ->
  exists (ws : nat -> list N) (cs : nat -> nat),
    List.length oks = List.length codes /\
    (forall i, i < List.length codes -> code_ok P m (cs i) (nth i codes (CProg (Exits true))) (match i with 0 => inp | S j => ws j end) (ws i) (nth i oks true)) /\
    (P -> forall j, S j < List.length codes -> match nth (S j) codes (CProg (Exits true)) with CProg p => reads_all p (ws j) | CFun f => fasks f (ws j) end) /\
    ws (List.length codes - 1) = o.
Proof.
  induction codes as [|c codes IH]; intros inp o oks A W Ne; [congruence|]. inversion A as [|c' cs' inp' mid o' ok oks' D R]; subst.
  destruct (cdoes_ok P m c inp mid ok D (fun p => proj1 (W p))) as [k Dk].
  destruct codes as [|c2 codes].
  - inversion R; subst. exists (fun _ => o), (fun _ => k). split; [reflexivity|]. split; [|split; [|reflexivity] ].
    + intros i Hi. cbn in Hi. replace i with 0 by lia. exact Dk.
    + intros _ j Hj. cbn in Hj. lia.
  - assert (Aw : P -> all_whole m (c2 :: codes) mid).
    { intros p. destruct (W p) as (_ & mid' & ok' & D' & Aw). destruct (cdoes_fun2 _ _ _ _ _ _ D D') as [-> _]. exact Aw. }
    assert (W2 : P -> well_fed m (c2 :: codes) mid /\ cwhole c2 mid).
    { intros p. specialize (Aw p). inversion Aw as [|? ? ? mid2 ok2 Wh Sh D2 Aw2]; subst. split; [|exact Wh]. split; [exact Sh|]. exists mid2, ok2. auto. }
    destruct (IH mid o oks' R (fun p => proj1 (W2 p)) ltac:(discriminate)) as (ws & cs & L1 & X & Y & Z).
    exists (fun i => match i with 0 => mid | S j => ws j end), (fun i => match i with 0 => k | S j => cs j end).
    split; [cbn in *; lia|]. split; [|split].
    + intros [|i] Hi; [exact Dk|]. cbn [List.length] in Hi. specialize (X i ltac:(cbn; lia)). cbn [nth]. cbn [nth] in X. destruct i; exact X.
    + intros p [|j] Hj.
      * cbn [nth]. destruct (W2 p) as [_ Wh]. destruct c2 as [q|f]; [exact Wh|]. destruct Wh as (lines & Li & As). eapply asks_fasks; eauto.
      * cbn [List.length] in Hj. specialize (Y p j ltac:(cbn; lia)). exact Y.
    + cbn [List.length] in Z |- *. replace (S (S (List.length codes)) - 1) with (S (S (List.length codes) - 1)) by lia. exact Z.
Qed.

(** ** bytes() and iteration *)
Section Instances.
  Variable L : limits.
  Variable pf : ofd -> bool.
  Variables logfd maxfd : nat.
  Variable c : stage.
  Variable cs : list stage.
  Variables s s' : st.
  Variable its : list item.
  Variable x : nat.
  Hypothesis HL : mixed L pf logfd maxfd c cs s s' its x.
  Variable codes : list code.
  Hypothesis Hcodes : Forall2 runs_as (c :: cs) codes.
  Variables cap pipe_buf : nat.
  Variables inp out : list N.
  Variable oks : list bool.
  Hypothesis Hin : can_read codes inp.
  Hypothesis HA : all_cdo codes inp out oks.
  Variable m : nat.
  Let n := List.length cs.
  Let T := well_fed m codes inp.
  Definition mix_verdict (o : list got) : Prop := (In GStop o -> forall b, In b oks -> b = true) /\ (In GFailed o -> In false oks).
  Definition mix_gone (its : list istate) : Prop := forall i, match nth i its (SProc None) with SProc p => p = None | SFun g => g_open g = false /\ g_done g <> None end.
  Lemma Lcodes : List.length codes = S n.
  Proof. symmetry. exact (F2_length _ _ _ Hcodes). Qed.
  Lemma codes_ne : codes <> [].
  Proof. intros E. pose proof Lcodes as X. rewrite E in X. discriminate. Qed.
  Lemma oks_verdict : List.length oks = List.length codes -> forall o,
    (In GStop o -> forall i, i <= n -> nth i oks true = true) /\ (In GFailed o -> exists i, i <= n /\ nth i oks true = false) -> mix_verdict o.
  Proof.
    intros Lo o [A B]. rewrite Lcodes in Lo. split.
    - intros X b Hb. apply (In_nth _ _ true) in Hb as (i & Hi & <-). apply (A X). lia.
    - intros X. destruct (B X) as (i & Hi & E). rewrite <- E. apply nth_In. lia.
  Qed.
  Lemma mix_bytes : exists N, forall ls t, bytes_mrun L logfd maxfd cap pipe_buf s s' its x (mix_begin L logfd maxfd s' its byte_init codes inp) ls = Some t ->
    (prefix (List.concat (items_of (r_out (m_rd t)))) out /\
     (ended (r_out (m_rd t)) -> List.concat (items_of (r_out (m_rd t))) = out)) /\
    (T -> 3 * m <= pipe_buf -> pipe_buf <= cap -> 1 <= cap ->
     exists ls' t', bytes_mrun L logfd maxfd cap pipe_buf s s' its x t ls' = Some t' /\ ended (r_out (m_rd t'))) /\
    (ended (r_out (m_rd t)) -> mix_gone (m_items t)) /\
    (T -> mix_verdict (r_out (m_rd t))) /\
    (T -> List.length (filter counts ls) <= N).
  Proof.
    destruct (all_cdo_nth T m codes inp out oks HA (fun h => h) codes_ne) as (ws & cs0 & Lo & X & Y & Z). rewrite Lcodes in X, Y, Z.
    destruct (mix_run L pf logfd maxfd c cs s s' its x HL codes Hcodes byte_handler byte_wants byte_event byte_next byte_resume bi_open BInv
      (fun r l r' I X => BInv_step true r l r' I X) b_open_w (fun r I E => proj2 (b_eof r I (proj1 (b_ateof r I E)))) byte_init BInv_start cap pipe_buf inp out (fun i => nth i oks true) T m ws cs0 Hin) as [N0 R].
    { intros i Hi. apply X. lia. }
    { intros ht j Hj. apply (Y ht). lia. }
    { replace (S n - 1) with n in Z by lia. exact Z. }
    exists N0. intros ls t E. destruct (R ls t E) as ((rest & R1 & R2) & (rl & RS) & F & G & V & B).
    split; [|split; [exact (fun a b c d => F a b c d byte_D1 byte_D2)|split; [exact G|split; [intros ht; apply (oks_verdict Lo), (V ht)|exact B] ] ] ].
    destruct (bytes_delivered true rl (m_rd t) RS) as [(p & P) Q]. pose proof (BInv_steps true rl _ _ BInv_start RS) as I. split.
    - exists (p ++ rest). rewrite app_assoc, <- P. now symmetry.
    - intros W. rewrite (Q W). destruct (b_end _ I W) as [X1 _]. destruct (b_eof _ I X1) as [_ X2]. rewrite (R2 X2) in R1. now rewrite app_nil_r in R1.
  Qed.
  Lemma mix_lines : exists N, forall ls t, lines_mrun L logfd maxfd cap pipe_buf s s' its x (mix_begin L logfd maxfd s' its line_init codes inp) ls = Some t ->
    (forall lines, is_lines out lines -> prefix (items_of (r_out (m_rd t))) lines /\
     (ended (r_out (m_rd t)) -> items_of (r_out (m_rd t)) = lines)) /\
    (T -> 3 * m <= pipe_buf -> pipe_buf <= cap -> 1 <= cap ->
     exists ls' t', lines_mrun L logfd maxfd cap pipe_buf s s' its x t ls' = Some t' /\ ended (r_out (m_rd t'))) /\
    (ended (r_out (m_rd t)) -> mix_gone (m_items t)) /\
    (T -> mix_verdict (r_out (m_rd t))) /\
    (T -> List.length (filter counts ls) <= N).
  Proof.
    destruct (all_cdo_nth T m codes inp out oks HA (fun h => h) codes_ne) as (ws & cs0 & Lo & X & Y & Z). rewrite Lcodes in X, Y, Z.
    destruct (mix_run L pf logfd maxfd c cs s s' its x HL codes Hcodes line_handler line_wants line_event line_next line_next li_open LInv
      (fun r l r' I X => LInv_step true r l r' I X) l_open_w (fun r I E => proj2 (l_eof r I (proj1 (l_ateof r I E)))) line_init LInv_start cap pipe_buf inp out (fun i => nth i oks true) T m ws cs0 Hin) as [N0 R].
    { intros i Hi. apply X. lia. }
    { intros ht j Hj. apply (Y ht). lia. }
    { replace (S n - 1) with n in Z by lia. exact Z. }
    exists N0. intros ls t E. destruct (R ls t E) as ((rest & R1 & R2) & (rl & RS) & F & G & V & B).
    split; [|split; [exact (fun a b c d => F a b c d (fun r I P => line_D1 _ r I (le_n _) P) (fun r I P W => line_D2 _ r I (le_n _) P W))|split; [exact G|split; [intros ht; apply (oks_verdict Lo), (V ht)|exact B] ] ] ].
    intros lines HLs. pose proof (LInv_steps true rl _ _ LInv_start RS) as I.
    destruct (li_eof (r_h (m_rd t))) eqn:Ee.
    - destruct (l_eof _ I Ee) as [_ W]. rewrite (R2 W), app_nil_r in R1. rewrite <- R1 in HLs. apply (lines_delivered true rl); [exact RS|exact HLs].
    - split; [|intros W; destruct (l_end _ I W); congruence].
      destruct (l_data _ I) as [D|[D1 _] ]; [|congruence].
      assert (D' : joined (items_of (r_out (m_rd t))) ++ (li_buf (r_h (m_rd t)) ++ r_pend (m_rd t)) ++ rest = out) by (rewrite <- R1, <- D, !app_assoc; reflexivity).
      destruct HLs as [Hf [HE|[HE _] ] ]; fold (joined lines) in HE; rewrite <- D' in HE.
      + eapply joined_prefix; [apply I|exact Hf|]. symmetry. exact HE.
      + eapply joined_prefix; [apply I|exact Hf|]. rewrite <- app_assoc in HE. symmetry. exact HE.
  Qed.
End Instances.
