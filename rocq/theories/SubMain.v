(** A started pipeline with subshells: what its iteration gives. *)
From Verif Require Import Py RedirModel Os PerformModel PerformSpec RunModel RunSpec RunTopSpec RunEnds RunMore RunStarted RunFinal IterModel IterSpec IterProofs NetModel NetSpec NetProofs NetTop SubModel SubSpec SubProofs SubTop.

Section Top.
  Variable L : limits.
  Variable pf : ofd -> bool.
  Variables logfd maxfd : nat.
  Variable g : stage.
  Variable gs : list stage.
  Variables s s' : st.
  Variable parts : list part.
  Variable x : nat.
  Hypothesis HS : sub_launched L pf logfd maxfd g gs s s' parts x.
  Notation sees := (parts_sees L logfd maxfd parts).
  Notation see i := (nth i sees (fun _ => None)).
  Notation fds := (proc_fds logfd maxfd).
  Notation subs := (subs_from 0 parts).
  Notation children := (children_from 0 0 parts).

  Lemma sees_cases sf o w m o' : sees_as logfd maxfd sf o w -> In m fds -> sf m = Some o' -> o' = o \/ o' = OPipeW w \/ exists k, o' = OTmp k.
  Proof.
    intros (B0 & B1 & (k & B2) & B3) Hm E. apply fds_spec in Hm as [Hm1 Hm2]. destruct m as [|[|[|m] ] ].
    - left. congruence.
    - right. left. congruence.
    - right. right. exists k. congruence.
    - rewrite B3 in E by lia. discriminate.
  Qed.
  Lemma graph_hyps (P : Prop) :
    (forall n pw, List.length (spliced (g :: gs)) = S n ->
     List.length sees = S n ->
     (forall i, i <= n -> s_np s <= pw i) ->
     (forall i j, i <= n -> j <= n -> pw i = pw j -> i = j) ->
     (forall k, see 0 0 = Some (OPipeR k) -> k < s_np s) -> see 0 0 <> None ->
     (forall j, j < n -> see (S j) 0 = Some (OPipeR (pw j))) ->
     (forall i, i <= n -> see i 1 = Some (OPipeW (pw i))) ->
     (forall i m k, i <= n -> In m fds -> s_np s <= k -> see i m = Some (OPipeW k) -> k = pw i) ->
     (forall i m k, i <= n -> In m fds -> s_np s <= k -> see i m = Some (OPipeR k) -> exists j, i = S j /\ k = pw j) ->
     In 0 fds -> In 1 fds ->
     (forall j b, nth_error subs j = Some b -> b_first b <= b_last b /\ b_last b <= n) ->
     (forall j b m k, nth_error subs j = Some b -> In m fds -> s_np s <= k -> b_sees b m = Some (OPipeW k) -> k = pw (b_last b)) ->
     (forall j b m k, nth_error subs j = Some b -> In m fds -> s_np s <= k -> b_sees b m = Some (OPipeR k) -> exists i, b_first b = S i /\ k = pw i) ->
     (forall j b j' b', nth_error subs j = Some b -> nth_error subs j' = Some b' -> b_first b < b_first b' -> b_first b' <= b_last b -> b_last b' <= b_last b) ->
     (forall m k, refers (s_tab s') m = Some (OPipeW k) -> k < s_np s) ->
     (forall m k, refers (s_tab s') m = Some (OPipeR k) -> s_np s <= k -> m = x) ->
     refers (s_tab s') x = Some (OPipeR (pw n)) ->
     (forall i, i <= n -> In (OwnProgram i) children \/ exists j b, In (OwnSub j) children /\ nth_error subs j = Some b /\ b_first b <= i <= b_last b) ->
     (forall j, j < List.length subs -> In (OwnSub j) children) ->
     (forall c, In c children -> match c with OwnProgram i => i <= n | OwnSub j => j < List.length subs end) ->
     (forall l, In l (last_ones 0 (g :: gs)) -> exists c, In c children /\ child_last subs c = l) -> P) -> P.
  Proof.
    intros Go. destruct HS as (its & HL & En & Rm).
    destruct (launched_facts L pf logfd maxfd _ _ s s' its x HL) as (o0 & R0 & Li & Sees & Rx & Same). rewrite map_length in *.
    pose proof HL as (A0 & A1 & A2 & Old & (ret & Es & Ec) & Hlog & Hmax & Hroom).
    destruct (refers (s_tab s) 1) as [o1|] eqn:E1; [|congruence].
    destruct (start_np L pf true _ _ s s' ret its o0 o1 logfd maxfd R0 E1 A2 Es) as [Np Perf]. rewrite map_length in Np.
    pose (oin := fun k => match k with 0 => o0 | S j => OPipeR (s_np s + j) end).
    assert (Items : forall k it, nth_error its k = Some it -> sees_as logfd maxfd (item_sees L logfd maxfd it) (oin (0 + k)) (s_np s + (0 + k)) /\ performed L logfd maxfd it).
    { intros k it Ek. assert (Hk : k < List.length its) by (apply nth_error_Some; congruence). destruct (Sees k ltac:(lia)) as (B0 & B1 & B2 & B3).
      rewrite (nth_indep _ _ (item_sees L logfd maxfd it)) in B0, B1, B2 by (rewrite map_length; exact Hk).
      assert (B3' : forall m, 2 < m -> m < maxfd -> m <> logfd -> nth k (map (item_sees L logfd maxfd) its) (item_sees L logfd maxfd it) m = None).
      { intros m. rewrite (nth_indep _ _ (fun _ => None)) by (rewrite map_length; exact Hk). exact (B3 m). }
      rewrite map_nth, (nth_error_nth _ _ _ Ek) in B0, B1, B2, B3'. split; [now split|].
      destruct it as [rs t argv|rs t argv].
      - destruct (Hroom _ _ _ (nth_error_In _ _ Ek)) as [Ro Fr]. destruct (Perf _ _ _ (nth_error_In _ _ Ek) Ro Fr) as (t' & X & Y). exists rs, t, argv, t'. now repeat split.
      - exfalso. cbn in B0. discriminate. }
    destruct (enter_wired L pf logfd maxfd ltac:(lia) ltac:(lia) (s_np s) oin (fun k => eq_refl) (g :: gs) its 0 (s_np s') (s_nt s') parts 0 En Items Rm ltac:(lia))
      as (Fits & ws & Lw & (Ls & Lk) & Last & Nd & Wr & Sb).
    specialize (Last ltac:(discriminate)). rewrite Nat.add_0_r in *. cbn [List.length] in Last.
    assert (Pos : 0 < List.length (spliced (g :: gs))) by (cbn [spliced flat_map]; rewrite app_length; destruct g; cbn; lia).
    pose (n := List.length ws - 1). assert (Ln : List.length ws = S n) by (unfold n; lia).
    assert (Pwn : nth n ws 0 = s_np s + List.length gs) by (unfold n; rewrite Last; lia).
    assert (Old0 : is_end o0 -> pipe_no o0 < s_np s) by exact (Old 0 o0 R0).
    assert (InP : forall o k i, o = OPipeR k -> s_np s <= k -> o = inp_of (oin 0) ws i -> exists j, i = S j /\ k = nth j ws 0).
    { intros o k i -> Hk E. destruct i as [|j]; cbn [inp_of oin] in E.
      - subst o0. specialize (Old0 Logic.I). cbn in Old0. lia.
      - exists j. split; [reflexivity|congruence]. }
    assert (OutP : forall k i, s_np s <= k -> OPipeW k = inp_of (oin 0) ws i -> False).
    { intros k i Hk E. destruct i as [|j]; cbn [inp_of oin] in E; [|discriminate]. subst o0. specialize (Old0 Logic.I). cbn in Old0. lia. }
    assert (Old' : forall m o, m <> x -> refers (s_tab s') m = Some o -> is_end o -> pipe_no o < s_np s).
    { intros m o Hm Er He. apply (Old m o); [|exact He]. unfold refers in *. now rewrite <- (Same m Hm). }
    destruct (children_cover _ _ Fits 0 0) as (C1 & C2 & C3 & C4).
    apply (Go n (fun i => nth i ws 0)).
    - lia.
    - lia.
    - intros i Hi. destruct (Wr (nth i ws 0)) as [[X _]|X]; [apply nth_In; lia|lia|lia].
    - intros i j Hi Hj E. apply (proj1 (NoDup_nth ws 0) Nd); auto; lia.
    - intros k E. destruct (Lk 0 ltac:(lia)) as (B0 & _). rewrite B0 in E. injection E as E. cbn [inp_of oin] in E. subst o0. now apply Old0.
    - destruct (Lk 0 ltac:(lia)) as (B0 & _). congruence.
    - intros j Hj. destruct (Lk (S j) ltac:(lia)) as (B0 & _). exact B0.
    - intros i Hi. destruct (Lk i ltac:(lia)) as (_ & B1 & _). exact B1.
    - intros i m k Hi Hm Hk E. destruct (sees_cases _ _ _ m _ (Lk i ltac:(lia)) Hm E) as [X|[X|[k' X] ] ]; [destruct (OutP _ _ Hk X)|congruence|discriminate].
    - intros i m k Hi Hm Hk E. destruct (sees_cases _ _ _ m _ (Lk i ltac:(lia)) Hm E) as [X|[X|[k' X] ] ]; [exact (InP _ _ _ eq_refl Hk X)|discriminate|discriminate].
    - apply fds_spec. lia.
    - apply fds_spec. lia.
    - intros j b E. destruct (Sb b (nth_error_In _ _ E)) as (f & l & X1 & X2 & X3 & X4 & _). lia.
    - intros j b m k Eb Hm Hk E. destruct (Sb b (nth_error_In _ _ Eb)) as (f & l & X1 & X2 & X3 & X4 & X5). cbn in X1, X2.
      destruct (sees_cases _ _ _ m _ X5 Hm E) as [X|[X|[k' X] ] ]; [destruct (OutP _ _ Hk X)|congruence|discriminate].
    - intros j b m k Eb Hm Hk E. destruct (Sb b (nth_error_In _ _ Eb)) as (f & l & X1 & X2 & X3 & X4 & X5). cbn in X1, X2.
      destruct (sees_cases _ _ _ m _ X5 Hm E) as [X|[X|[k' X] ] ]; [rewrite X1; exact (InP _ _ _ eq_refl Hk X)|discriminate|discriminate].
    - intros j b j' b' Eb Eb' F1 F2. exfalso. destruct (Nat.lt_total j j') as [Lt|[->|Lt] ].
      + pose proof (subs_order _ _ Fits 0 j b j' b' Lt Eb Eb'). lia.
      + rewrite Eb in Eb'. injection Eb' as ->. lia.
      + pose proof (subs_order _ _ Fits 0 j' b' j b Lt Eb' Eb). pose proof (subs_range _ _ Fits 0 j' b' Eb'). lia.
    - intros m k E. destruct (Nat.eq_dec m x) as [->|Ne]; [congruence|]. apply (Old' m _ Ne E). exact Logic.I.
    - intros m k E Hk. destruct (Nat.eq_dec m x) as [->|Ne]; [reflexivity|]. pose proof (Old' m _ Ne E Logic.I) as X. cbn in X. lia.
    - rewrite Pwn. exact Rx.
    - intros i Hi. destruct (C1 i ltac:(lia)) as [X|(c & b & X & Y)]; [now left|]. right. exists c, b. now split.
    - intros j Hj. now apply (C2 j).
    - intros c Hc. specialize (C3 c Hc). destruct c; lia.
    - intros l Hl. destruct (C4 l Hl) as [X|(c & b & X & Y & Z)]; [exists (OwnProgram l); now split|]. exists (OwnSub c). split; [exact X|]. cbn. now rewrite Y.
  Qed.

  Variable cap : nat.
  Variables progs : list prog.
  Variables inp out : list N.
  Variable oks : list bool.
  Hypothesis Hlen : List.length progs = List.length (spliced (g :: gs)).
  Hypothesis Hdo : all_do progs inp out oks.
  Hypothesis Hcare : Forall careful progs.
  Hypothesis Hcap : 0 < cap.
  Section Handler.
    Variable H : Type.
    Variable h_wants : H -> bool.
    Variable h_event : H -> bytes -> H * bool.
    Variable h_next h_resume : H -> H * outcome.
    Variable h_open : H -> bool.
    Variable RI : rstate H -> Prop.
    Hypothesis RI_step : forall r l r', RI r -> rstep H h_wants h_event h_next h_resume h_open true r l = Some r' -> RI r'.
    Hypothesis RI_open : forall r, RI r -> h_open (r_h r) = false -> r_wopen r = false.
    Variable h : H.
    Hypothesis RI_start : RI (r_init H h).
    Notation steps := (u_steps H h_wants h_event h_next h_resume h_open (s_np s) cap fds sees subs children (s_tab s') x (caller_pipe (s_tab s') x)).
    Hypothesis pre : forall r, RI r -> r_pend r <> [] -> exists r', drains H h_wants h_event h_next h_resume h_open r r' /\ List.length (r_pend r') < List.length (r_pend r).
    Hypothesis fin : forall r, RI r -> r_pend r = [] -> r_wopen r = false -> exists r', drains H h_wants h_event h_next h_resume h_open r r' /\ r_phase r' = PAtEof.
    Lemma sub_run : exists bound, forall ls t, steps (u_start H subs h progs inp) ls = Some t ->
      (exists rest, r_sent (u_rd t) ++ rest = out /\ (r_wopen (u_rd t) = false -> rest = [])) /\
      (exists rl, rsteps H h_wants h_event h_next h_resume h_open true (r_init H h) rl = Some (u_rd t)) /\
      (exists ls' t', steps t ls' = Some t' /\ ended (r_out (u_rd t'))) /\
      (ended (r_out (u_rd t)) -> nobody t) /\
      (forall l, In l (last_ones 0 (g :: gs)) -> nth_error oks l = Some false -> ~ In GStop (r_out (u_rd t))) /\
      (others_read progs inp -> ~ In false oks -> ~ In GFailed (r_out (u_rd t))) /\
      List.length (filter own_label ls) <= bound.
    Proof.
      apply graph_hyps. intros n pw N0 A1 A2 A3 A4 A5 A6 A7 A8 A9 A10 A11 A12 A13 A14 A15 A16 A17 A18 C1 C2 C3 C4.
      unfold caller_pipe. rewrite A18.
      destruct (all_do_others _ _ _ _ Hdo) as (ws & cs & X & Y & Z). rewrite Hlen, N0 in Y. 
      pose (okf := fun i => nth i oks true).
      assert (I0 : uinv H fds sees subs n pw RI out okf (others_read progs inp) (u_start H subs h progs inp) ws cs).
      { eapply uinv_start; try eassumption; [lia|]. intros i q Ei. destruct (X i q Ei) as (ok & B1 & B2 & B3). unfold okf. rewrite (nth_error_nth _ _ _ B1). split; [exact B2|].
        split; [rewrite Forall_forall in Hcare; apply Hcare; eapply nth_error_In; exact Ei|]. exact B3. }
      exists (left H n cs (u_start H subs h progs inp)). intros ls t E.
      assert (St : exists ws' cs', uinv H fds sees subs n pw RI out okf (others_read progs inp) t ws' cs' /\
        left H n cs' t + List.length (filter own_label ls) <= left H n cs (u_start H subs h progs inp) /\
        exists rl, rsteps H h_wants h_event h_next h_resume h_open true (u_rd (u_start H subs h progs inp)) rl = Some (u_rd t)) by (eapply uinv_steps; eassumption).
      destruct St as (ws' & cs' & I & Bd & RL).
      assert (F : final H children t) by (eapply final_steps with (s := u_start H subs h progs inp); try eassumption; apply final_start).
      destruct F as (F0 & F1 & F2).
      split; [|split; [exact RL|split; [|split; [|split; [|split] ] ] ] ].
      - exists (ws' n). split; [exact (v_sent _ _ _ _ _ _ _ _ _ _ _ _ _ I)|]. rewrite (v_wopen _ _ _ _ _ _ _ _ _ _ _ _ _ I). intros Lv.
        assert (Dn : dead (u_procs t) n).
        { unfold dead. destruct (going (u_procs t) n) eqn:G; [|reflexivity]. rewrite <- Lv. symmetry. assert (Z0 : going (u_procs t) n = true -> u_live fds sees subs (is_w (pw n)) (u_procs t) (u_subs t) = true); [|now rewrite (Z0 G) in Lv].
          eapply live_w; try eassumption. lia. }
        destruct (dead_Gone _ _ Dn) as (ok & Ek). destruct (v_gone _ _ _ _ _ _ _ _ _ _ _ _ _ I n ok (le_n _) Ek) as [[W|[W _] ] _]; [exact W|lia].
      - eapply u_finishes; eassumption.
      - intros En. destruct (F0 En) as [D W]. split.
        + intros i p Ei. specialize (D i). unfold dead, going, u_state in D. rewrite (nth_error_nth _ _ _ Ei) in D. discriminate.
        + intros j Ej. specialize (W j). unfold waits in W. rewrite (nth_error_nth _ _ _ Ej) in W. discriminate.
      - intros l Hl Ok Stop. destruct (C4 l Hl) as (c & Hc & Ec). specialize (F1 Stop). assert (Z0 : forallb (child_ok H t) children = false); [|congruence].
        eapply child_fails with (oks := okf) (c := c); try eassumption; [apply F0; now left|]. rewrite Ec. unfold okf. now rewrite (nth_error_nth _ _ _ Ok).
      - intros R Hf Fl. specialize (F2 Fl). assert (Z0 : forallb (child_ok H t) children = true); [|congruence].
        eapply children_work with (oks := okf); try eassumption; [|apply F0; now right].
        intros i Hi. unfold okf. destruct (nth_in_or_default i oks true) as [X0|X0]; [|exact X0]. destruct (nth i oks true); [reflexivity|contradiction].
      - lia.
    Qed.
  End Handler.

  Lemma subs_bytes : exists bound, forall ls t, sub_bytes L logfd maxfd cap s s' parts x (u_start byte_handler subs byte_init progs inp) ls = Some t ->
    (prefix (List.concat (items_of (r_out (u_rd t)))) out /\ (ended (r_out (u_rd t)) -> List.concat (items_of (r_out (u_rd t))) = out)) /\
    (exists ls' t', sub_bytes L logfd maxfd cap s s' parts x t ls' = Some t' /\ ended (r_out (u_rd t'))) /\
    (ended (r_out (u_rd t)) -> nobody t) /\
    (forall l, In l (last_ones 0 (g :: gs)) -> nth_error oks l = Some false -> ~ In GStop (r_out (u_rd t))) /\
    (others_read progs inp -> ~ In false oks -> ~ In GFailed (r_out (u_rd t))) /\
    List.length (filter own_label ls) <= bound.
  Proof.
    destruct (sub_run byte_handler byte_wants byte_event byte_next byte_resume bi_open BInv
      (fun r l r' I X => BInv_step true r l r' I X) b_open_w byte_init BInv_start byte_D1 byte_D2) as (bound & B).
    exists bound. intros ls t E. destruct (B ls t E) as ((rest & R1 & R2) & (rl & RS) & Rest). split; [|exact Rest].
    destruct (bytes_delivered true rl (u_rd t) RS) as [(p & P) Q]. pose proof (BInv_steps true rl _ _ BInv_start RS) as I. split.
    - exists (p ++ rest). rewrite app_assoc, <- P. now symmetry.
    - intros X. rewrite (Q X). destruct (b_end _ I X) as [X1 _]. destruct (b_eof _ I X1) as [_ X2]. rewrite (R2 X2) in R1. now rewrite app_nil_r in R1.
  Qed.
  Lemma subs_lines : exists bound, forall ls t, sub_lines L logfd maxfd cap s s' parts x (u_start line_handler subs line_init progs inp) ls = Some t ->
    (forall lines, is_lines out lines -> prefix (items_of (r_out (u_rd t))) lines /\ (ended (r_out (u_rd t)) -> items_of (r_out (u_rd t)) = lines)) /\
    (exists ls' t', sub_lines L logfd maxfd cap s s' parts x t ls' = Some t' /\ ended (r_out (u_rd t'))) /\
    (ended (r_out (u_rd t)) -> nobody t) /\
    (forall l, In l (last_ones 0 (g :: gs)) -> nth_error oks l = Some false -> ~ In GStop (r_out (u_rd t))) /\
    (others_read progs inp -> ~ In false oks -> ~ In GFailed (r_out (u_rd t))) /\
    List.length (filter own_label ls) <= bound.
  Proof.
    destruct (sub_run line_handler line_wants line_event line_next line_next li_open LInv
      (fun r l r' I X => LInv_step true r l r' I X) l_open_w line_init LInv_start (fun r I P => line_D1 _ r I (le_n _) P) (fun r I P W => line_D2 _ r I (le_n _) P W)) as (bound & B).
    exists bound. intros ls t E. destruct (B ls t E) as ((rest & R1 & R2) & (rl & RS) & Rest). split; [|exact Rest].
    intros lines HLs. pose proof (LInv_steps true rl _ _ LInv_start RS) as I.
    destruct (li_eof (r_h (u_rd t))) eqn:Ee.
    - destruct (l_eof _ I Ee) as [_ W]. rewrite (R2 W), app_nil_r in R1. rewrite <- R1 in HLs. apply (lines_delivered true rl); [exact RS|exact HLs].
    - split; [|intros X; destruct (l_end _ I X); congruence].
      destruct (l_data _ I) as [D|[D1 _] ]; [|congruence].
      assert (D' : joined (items_of (r_out (u_rd t))) ++ (li_buf (r_h (u_rd t)) ++ r_pend (u_rd t)) ++ rest = out) by (rewrite <- R1, <- D, !app_assoc; reflexivity).
      destruct HLs as [Hf [HE|[HE _] ] ]; fold (joined lines) in HE; rewrite <- D' in HE.
      + eapply joined_prefix; [apply I|exact Hf|]. symmetry. exact HE.
      + eapply joined_prefix; [apply I|exact Hf|]. rewrite <- app_assoc in HE. symmetry. exact HE.
  Qed.
End Top.
