(** From a started pipeline to the network of its processes. *)
From Verif Require Import Py RedirModel Os PerformModel PerformSpec RunModel RunSpec RunTopSpec RunEnds RunMore RunStarted RunFinal IterModel IterSpec IterProofs NetModel NetSpec NetProofs.

Section Top.
  Variable L : limits.
  Variable pf : ofd -> bool.
  Variables logfd maxfd : nat.
  Variable c : list string.
  Variable cs : list (list string).
  Variables s s' : st.
  Variable its : list item.
  Variable x : nat.
  Hypothesis HL : launched L pf logfd maxfd c cs s s' its x.
  Notation n := (List.length cs).
  Notation sees := (map (item_sees L logfd maxfd) its).
  Notation see i := (nth i sees (fun _ => None)).
  Notation fds := (proc_fds logfd maxfd).

  Lemma launched_facts : exists o0,
    refers (s_tab s) 0 = Some o0 /\ List.length its = S n /\
    (forall i, i <= n -> see i 0 = Some (match i with 0 => o0 | S j => OPipeR (s_np s + j) end) /\
       see i 1 = Some (OPipeW (s_np s + i)) /\ (exists k, see i 2 = Some (OTmp k)) /\ forall m, 2 < m -> m < maxfd -> m <> logfd -> see i m = None) /\
    refers (s_tab s') x = Some (OPipeR (s_np s + n)) /\
    (forall m, m <> x -> tget (s_tab s') m = tget (s_tab s) m).
  Proof.
    destruct HL as (A0 & A1 & A2 & Old & (ret & Es & Ec) & Hlog & Hmax & Hroom).
    destruct (refers (s_tab s) 0) as [o0|] eqn:E0; [|congruence]. destruct (refers (s_tab s) 1) as [o1|] eqn:E1; [|congruence].
    exists o0. split; [reflexivity|].
    pose proof (start_chain L pf true c cs s o0 o1 logfd maxfd E0 E1 A2) as S1. rewrite Es in S1. cbn zeta in S1. destruct S1 as (Len & Items & xx & Ex & Rx).
    pose proof (start_correct L pf true (chain c cs) s o0 o1 logfd maxfd E0 E1 A2 (clean_chain _ _ _ _)) as S2. rewrite Es in S2. cbn zeta in S2. destruct S2 as (_ & _ & _ & _ & Same).
    rewrite Ec in Ex. injection Ex as <-.
    assert (Each : forall i, i <= n -> exists ws rs t argv, nth_error (c :: cs) i = Some ws /\ nth_error its i = Some (IProc rs t argv)).
    { intros i Hi. destruct (nth_error (c :: cs) i) as [ws|] eqn:E.
      - destruct (Items i ws E) as (rs & t & argv & X & _). exists ws, rs, t, argv. now split.
      - apply nth_error_None in E. cbn in E. lia. }
    split; [exact Len|]. split; [|split; [exact Rx|]].
    - intros i Hi. destruct (Each i Hi) as (ws & rs & t & argv & Ew & Ei). destruct (Items i ws Ew) as (rs' & t' & argv' & Ei' & P).
      rewrite Ei in Ei'. injection Ei' as <- <- <-.
      destruct (Hroom rs t argv (nth_error_In _ _ Ei)) as [R F]. destruct (P R F) as (_ & B0 & B1 & B2 & B3).
      assert (Es' : see i = program_fd L logfd maxfd rs t).
      { rewrite (nth_indep _ _ (item_sees L logfd maxfd (IProc rs t argv))) by (rewrite map_length; lia). rewrite map_nth. now rewrite (nth_error_nth _ _ _ Ei). }
      rewrite Es'. split; [exact B0|]. split; [rewrite B1; destruct (Nat.eqb_spec i n) as [->|]; reflexivity|]. split; [eauto|exact B3].
    - intros m Hm. apply Same. rewrite Ec. intros [X|X]; [congruence|]. revert X.
      assert (Nil : function_fds its = []); [|rewrite Nil; intros []].
      assert (All : forall it, In it its -> exists rs t argv, it = IProc rs t argv).
      { intros it Hit. apply In_nth_error in Hit as [i Hi]. assert (Hl : i < List.length its) by (apply nth_error_Some; congruence).
        destruct (Each i ltac:(lia)) as (ws & rs & t & argv & _ & X). rewrite Hi in X. injection X as ->. eauto. }
      clear -All. induction its as [|it its' IH]; [reflexivity|]. destruct (All it (or_introl eq_refl)) as (rs & t & argv & ->). cbn. apply IH. intros it' Hit. apply All. now right.
  Qed.

  Lemma fds_spec m : In m fds <-> m < maxfd /\ m <> logfd.
  Proof. unfold proc_fds. rewrite filter_In, in_seq, negb_true_iff, Nat.eqb_neq. split; intros [A B]; split; auto; lia. Qed.

  Section Handler.
    Variable H : Type.
    Variable h_wants : H -> bool.
    Variable h_event : H -> bytes -> H * bool.
    Variable h_next h_resume : H -> H * outcome.
    Variable h_open : H -> bool.
    Variable RI : rstate H -> Prop.
    Hypothesis RI_step : forall r l r', RI r -> rstep H h_wants h_event h_next h_resume h_open true r l = Some r' -> RI r'.
    Hypothesis RI_open : forall r, RI r -> h_open (r_h r) = false -> r_wopen r = false.
    Variable h : H.
    Hypothesis RI_start : RI (r_init H h).
    Variables cap : nat.
    Variables progs : list prog.
    Variables inp out : list N.
    Hypothesis Hlen : List.length progs = S n.
    Notation steps := (nsteps H h_wants h_event h_next h_resume h_open (s_np s) cap fds sees (s_tab s') x (caller_pipe (s_tab s') x)).
    Lemma chain_hyps (P : Prop) :
      (List.length sees = S n ->
       (forall k, see 0 0 = Some (OPipeR k) -> k < s_np s) -> see 0 0 <> None ->
       (forall j, j < n -> see (S j) 0 = Some (OPipeR (s_np s + j))) ->
       (forall i, i <= n -> see i 1 = Some (OPipeW (s_np s + i))) ->
       (forall i m k, i <= n -> In m fds -> s_np s <= k -> see i m = Some (OPipeW k) -> k = s_np s + i) ->
       (forall i m k, i <= n -> In m fds -> s_np s <= k -> see i m = Some (OPipeR k) -> exists j, i = S j /\ k = s_np s + j) ->
       In 0 fds -> In 1 fds ->
       (forall m k, refers (s_tab s') m = Some (OPipeW k) -> k < s_np s) ->
       (forall m k, refers (s_tab s') m = Some (OPipeR k) -> s_np s <= k -> m = x) ->
       refers (s_tab s') x = Some (OPipeR (s_np s + n)) -> P) -> P.
    Proof.
      destruct launched_facts as (o0 & R0 & Li & Sees & Rx & Same). destruct HL as (_ & _ & _ & Old & _ & Hlog & Hmax & _). intros Go.
      assert (Old' : forall m o, m <> x -> refers (s_tab s') m = Some o -> is_end o -> pipe_no o < s_np s).
      { intros m o Hm Er He. apply (Old m o); [|exact He]. unfold refers in *. now rewrite <- (Same m Hm). }
      assert (Cases : forall i m o, i <= n -> In m fds -> see i m = Some o -> o = match i with 0 => o0 | S j => OPipeR (s_np s + j) end \/ o = OPipeW (s_np s + i) \/ exists k, o = OTmp k).
      { intros i m o Hi Hm Es. apply fds_spec in Hm as [Hm1 Hm2]. destruct (Sees i Hi) as (B0 & B1 & (k & B2) & B3). destruct m as [|[|[|m] ] ].
        - left. congruence.
        - right. left. congruence.
        - right. right. exists k. congruence.
        - rewrite B3 in Es by lia. discriminate. }
      assert (Old0 : is_end o0 -> pipe_no o0 < s_np s) by exact (Old 0 o0 R0).
      apply Go.
      - rewrite map_length. exact Li.
      - intros k E. destruct (Sees 0 ltac:(lia)) as (B0 & _). rewrite B0 in E. injection E as ->. now apply Old0.
      - destruct (Sees 0 ltac:(lia)) as (B0 & _). congruence.
      - intros j Hj. exact (proj1 (Sees (S j) ltac:(lia))).
      - intros i Hi. exact (proj1 (proj2 (Sees i Hi))).
      - intros i m k Hi Hm Hk E. destruct (Cases i m _ Hi Hm E) as [X|[X|[k' X] ] ]; [|congruence|discriminate].
        destruct i; [|discriminate]. subst o0. specialize (Old0 Logic.I). cbn in Old0. lia.
      - intros i m k Hi Hm Hk E. destruct (Cases i m _ Hi Hm E) as [X|[X|[k' X] ] ]; [|congruence|discriminate].
        destruct i as [|j]; [subst o0; specialize (Old0 Logic.I); cbn in Old0; lia|]. exists j. split; [reflexivity|congruence].
      - apply fds_spec. lia.
      - apply fds_spec. lia.
      - intros m k E. destruct (Nat.eq_dec m x) as [->|Ne]; [congruence|]. apply (Old' m _ Ne E). exact Logic.I.
      - intros m k E Hk. destruct (Nat.eq_dec m x) as [->|Ne]; [reflexivity|]. pose proof (Old' m _ Ne E Logic.I) as X. cbn in X. lia.
      - exact Rx.
    Qed.
    Notation pre := (forall r, RI r -> r_pend r <> [] -> exists r', drains H h_wants h_event h_next h_resume h_open r r' /\ List.length (r_pend r') < List.length (r_pend r)).
    Notation fin := (forall r, RI r -> r_pend r = [] -> r_wopen r = false -> exists r', drains H h_wants h_event h_next h_resume h_open r r' /\ r_phase r' = PAtEof).
    (** What the theorems about networks need. *)
    Definition facts (es : nat -> option bool) (T : Prop) (ws : nat -> list N) (cs0 : nat -> nat) : Prop :=
      (forall i q, nth_error progs i = Some q ->
         givesn (cs0 i) q (match i with 0 => inp | S j => ws j end) (closing es i) (ws i) (es i) /\ (es i = None -> lively q) /\
         (T -> forall j, i = S j -> reads_all q (ws j))) /\
      ws n = out /\ es n <> None /\ (T -> forall i, i <= n -> es i <> None).
    Lemma give_facts : all_give progs inp true out true -> exists es ws cs0, facts es False ws cs0.
    Proof.
      intros A. destruct (all_give_nth _ _ _ _ _ A) as (es & ws & cs0 & X & Y). rewrite Hlen in Y. destruct Y as [Y1 Y2]. exists es, ws, cs0. split; [|split; [exact Y1|split; [destruct (es n); [discriminate|discriminate Y2]|contradiction]]].
      intros i q E. destruct (X i q E) as [X1 X2]. split; [|split; [exact X2|contradiction]]. destruct i as [|j]; [exact X1|]. unfold closing. unfold is_some in X1. exact X1.
    Qed.
    Lemma do_facts oks : all_do progs inp out oks -> exists ws cs0, facts (fun i => nth_error oks i) (others_read progs inp) ws cs0.
    Proof.
      intros A. destruct (all_do_others _ _ _ _ A) as (ws & cs0 & X & Y & Z). rewrite Hlen in Y, Z. exists ws, cs0.
      assert (S0 : forall i, i <= n -> nth_error oks i <> None) by (intros i Hi; apply nth_error_Some; lia).
      split; [|split; [exact Y|split; [now apply S0|auto]]].
      intros i q E. destruct (X i q E) as (ok & X1 & X2 & X3). rewrite X1. split; [|split; [discriminate|]].
      - replace (closing (fun i0 => nth_error oks i0) i) with true; [exact X2|]. assert (Hi : i < List.length progs) by (apply nth_error_Some; congruence). destruct i as [|j]; [reflexivity|].
        cbn. destruct (nth_error oks j) eqn:Ej; [reflexivity|]. now apply S0 in Ej; [|lia].
      - exact X3.
    Qed.
    Lemma top_run es T ws cs0 ls t : facts es T ws cs0 -> steps (net_start H h progs inp) ls = Some t ->
      (exists rest, r_sent (n_rd t) ++ rest = out /\ (r_wopen (n_rd t) = false -> rest = [])) /\
      (exists rl, rsteps H h_wants h_event h_next h_resume h_open true (r_init H h) rl = Some (n_rd t)) /\
      (Forall careful progs -> 0 < cap -> pre -> fin -> exists ls' t', steps t ls' = Some t' /\ ended (r_out (n_rd t'))) /\
      (Forall careful progs -> (forall i, nth i (n_procs t) None = None) -> forall i, i <= n -> es i = Some false -> n_ok t = false) /\
      (T -> (forall i, i <= n -> es i = Some true) -> n_ok t = true) /\
      (Forall careful progs -> (forall i, i <= n -> es i <> None) -> List.length (filter proc_label ls) <= total cs0 n).
    Proof.
      intros (F1 & F2 & F3 & F4). apply chain_hyps. intros A1 A2 A3 A4 A5 A6 A7 A8 A9 A10 A11 A12. unfold caller_pipe in *. rewrite A12 in *. intros E.
      pose (okf := fun _ : nat => false). pose (C := Forall careful progs).
      assert (Hokf : C -> forall i, es i = Some false -> okf i = false) by reflexivity.
      assert (I0 : inv H (s_np s) sees n RI out es okf C T (net_start H h progs inp) ws cs0).
      { apply inv_start; auto; [intros X; contradiction|]. intros i q Ei. destruct (F1 i q Ei) as (B1 & B2 & B3). split; [exact B1|]. split; [|split; [auto|exact B3]].
        intros HC. apply careful_heeds. unfold C in HC. rewrite Forall_forall in HC. apply HC. eapply nth_error_In; exact Ei. }
      edestruct (inv_nsteps H h_wants h_event h_next h_resume h_open (s_np s) cap fds sees (s_tab s') x n) as (ws' & cs' & I & Tt & RL); try eassumption.
      split; [|split; [exact RL|split; [|split; [|split]]]].
      - exists (ws' n). split; [apply I|]. rewrite (i_wopen _ _ _ _ _ _ _ _ _ _ _ _ _ I). unfold live. destruct (nth n (n_procs t) None) eqn:En; [discriminate|].
        intros _. destruct (i_dead _ _ _ _ _ _ _ _ _ _ _ _ _ I n (le_n _) En) as [X|[X _]]; [exact X|lia].
      - intros HC Hc D1 D2. eapply finishes with (C := C); eassumption.
      - intros HC Hd i Hi Ei. exact (i_status _ _ _ _ _ _ _ _ _ _ _ _ _ I HC i Hi (Hd i) Ei).
      - intros HT HE. exact (i_ok _ _ _ _ _ _ _ _ _ _ _ _ _ I HT HE).
      - intros HC HE. specialize (Tt (conj HC HE)). lia.
    Qed.
  End Handler.
End Top.

Section Instances.
  Variable L : limits.
  Variable pf : ofd -> bool.
  Variables logfd maxfd : nat.
  Variable c : list string.
  Variable cs : list (list string).
  Variables s s' : st.
  Variable its : list item.
  Variable x : nat.
  Hypothesis HL : launched L pf logfd maxfd c cs s s' its x.
  Variables cap : nat.
  Variables progs : list prog.
  Variables inp out : list N.
  Hypothesis Hlen : List.length progs = S (List.length cs).
  Variable es : nat -> option bool.
  Variable T : Prop.
  Variable ws : nat -> list N.
  Variable cs0 : nat -> nat.
  Hypothesis HF : facts cs progs inp out es T ws cs0.
  Lemma b_open_w r : BInv r -> bi_open (r_h r) = false -> r_wopen r = false.
  Proof. intros I E. rewrite (b_open r I) in E. apply negb_false_iff in E. now destruct (b_eof r I E). Qed.
  Lemma l_open_w r : LInv r -> li_open (r_h r) = false -> r_wopen r = false.
  Proof. intros I E. rewrite (l_open r I) in E. apply negb_false_iff in E. now destruct (l_eof r I E). Qed.
  (** How the iteration can end. *)
  Definition verdict {H} (t : net H) : Prop :=
    (Forall careful progs -> forall i, i <= List.length cs -> es i = Some false -> ~ In GStop (r_out (n_rd t))) /\
    (T -> (forall i, i <= List.length cs -> es i = Some true) -> ~ In GFailed (r_out (n_rd t))).
  Lemma to_verdict H (t : net H) : end_gone H t ->
    (Forall careful progs -> (forall i, nth i (n_procs t) None = None) -> forall i, i <= List.length cs -> es i = Some false -> n_ok t = false) ->
    (T -> (forall i, i <= List.length cs -> es i = Some true) -> n_ok t = true) -> verdict t.
  Proof.
    intros (G & G1 & G2) A B. split.
    - intros HC i Hi Ei X. pose proof (A HC (G (or_introl X)) i Hi Ei). specialize (G1 X). congruence.
    - intros HT HE X. specialize (B HT HE). specialize (G2 X). congruence.
  Qed.
  Lemma bytes_top ls t : bytes_run L logfd maxfd cap s s' its x (net_start byte_handler byte_init progs inp) ls = Some t ->
    (prefix (List.concat (items_of (r_out (n_rd t)))) out /\
     (ended (r_out (n_rd t)) -> List.concat (items_of (r_out (n_rd t))) = out)) /\
    (Forall careful progs -> 0 < cap -> exists ls' t', bytes_run L logfd maxfd cap s s' its x t ls' = Some t' /\ ended (r_out (n_rd t'))) /\
    verdict t /\
    (Forall careful progs -> (forall i, i <= List.length cs -> es i <> None) -> List.length (filter proc_label ls) <= total cs0 (List.length cs)).
  Proof.
    intros E. destruct (top_run L pf logfd maxfd c cs s s' its x HL byte_handler byte_wants byte_event byte_next byte_resume bi_open BInv
      (fun r l r' I X => BInv_step true r l r' I X) b_open_w byte_init BInv_start cap progs inp out Hlen es T ws cs0 ls t HF E) as ((rest & R1 & R2) & (rl & RS) & F & V1 & V2 & Fi).
    split; [|split; [exact (fun C0 H0 => F C0 H0 byte_D1 byte_D2)|split; [|exact Fi]]].
    2: { apply to_verdict; [|exact V1|exact V2]. eapply end_gone_steps; [|exact E]. split; [intros [[]|[]]|split; intros []]. }
    destruct (bytes_delivered true rl (n_rd t) RS) as [(p & P) Q]. pose proof (BInv_steps true rl _ _ BInv_start RS) as I. split.
    - exists (p ++ rest). rewrite app_assoc, <- P. now symmetry.
    - intros X. rewrite (Q X). destruct (b_end _ I X) as [X1 _]. destruct (b_eof _ I X1) as [_ X2]. rewrite (R2 X2) in R1. now rewrite app_nil_r in R1.
  Qed.
  Lemma lines_top ls t : lines_run L logfd maxfd cap s s' its x (net_start line_handler line_init progs inp) ls = Some t ->
    (forall lines, is_lines out lines -> prefix (items_of (r_out (n_rd t))) lines /\
     (ended (r_out (n_rd t)) -> items_of (r_out (n_rd t)) = lines)) /\
    (Forall careful progs -> 0 < cap -> exists ls' t', lines_run L logfd maxfd cap s s' its x t ls' = Some t' /\ ended (r_out (n_rd t'))) /\
    verdict t /\
    (Forall careful progs -> (forall i, i <= List.length cs -> es i <> None) -> List.length (filter proc_label ls) <= total cs0 (List.length cs)).
  Proof.
    intros E. destruct (top_run L pf logfd maxfd c cs s s' its x HL line_handler line_wants line_event line_next line_next li_open LInv
      (fun r l r' I X => LInv_step true r l r' I X) l_open_w line_init LInv_start cap progs inp out Hlen es T ws cs0 ls t HF E) as ((rest & R1 & R2) & (rl & RS) & F & V1 & V2 & Fi).
    split; [|split; [exact (fun C0 H0 => F C0 H0 (fun r I P => line_D1 _ r I (le_n _) P) (fun r I P W => line_D2 _ r I (le_n _) P W))|split; [|exact Fi]]].
    2: { apply to_verdict; [|exact V1|exact V2]. eapply end_gone_steps; [|exact E]. split; [intros [[]|[]]|split; intros []]. }
    intros lines HLs. pose proof (LInv_steps true rl _ _ LInv_start RS) as I.
    destruct (li_eof (r_h (n_rd t))) eqn:Ee.
    - destruct (l_eof _ I Ee) as [_ W]. rewrite (R2 W), app_nil_r in R1. subst out. apply (lines_delivered true rl); [exact RS|exact HLs].
    - split; [|intros X; destruct (l_end _ I X); congruence].
      destruct (l_data _ I) as [D|[D1 _]]; [|congruence].
      assert (D' : joined (items_of (r_out (n_rd t))) ++ (li_buf (r_h (n_rd t)) ++ r_pend (n_rd t)) ++ rest = out) by (rewrite <- R1, <- D, !app_assoc; reflexivity).
      destruct HLs as [Hf [HE|[HE _]]]; fold (joined lines) in HE; rewrite <- D' in HE.
      + eapply joined_prefix; [apply I|exact Hf|]. symmetry. exact HE.
      + eapply joined_prefix; [apply I|exact Hf|]. rewrite <- app_assoc in HE. symmetry. exact HE.
  Qed.
End Instances.
