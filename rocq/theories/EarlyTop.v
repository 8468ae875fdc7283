(** From a pipeline that is still being started to the network of its processes. *)
From Verif Require Import Py RedirModel Os PerformModel PerformSpec RunModel RunSpec RunTopSpec RunEnds RunMore RunStarted RunFinal IterModel IterSpec IterProofs NetModel NetSpec NetProofs NetTop EarlyModel EarlyProofs.

Section Top.
  Variable L : limits.
  Variable pf : ofd -> bool.
  Variables logfd maxfd : nat.
  Variable c : list string.
  Variable cs : list (list string).
  Variables s s' : st.
  Variable its : list item.
  Variable x : nat.
  Hypothesis HL : launched L pf logfd maxfd c cs s s' its x.
  Notation n := (List.length cs).
  Notation sees := (map (item_sees L logfd maxfd) its).
  Notation fds := (proc_fds logfd maxfd).
  Section Handler.
    Variable H : Type.
    Variable h_wants : H -> bool.
    Variable h_event : H -> bytes -> H * bool.
    Variable h_next h_resume : H -> H * outcome.
    Variable h_open : H -> bool.
    Variable RI : rstate H -> Prop.
    Hypothesis RI_step : forall r l r', RI r -> rstep H h_wants h_event h_next h_resume h_open true r l = Some r' -> RI r'.
    Hypothesis RI_open : forall r, RI r -> h_open (r_h r) = false -> r_wopen r = false.
    Variable h : H.
    Hypothesis RI_start : RI (r_init H h).
    Variables cap : nat.
    Variables progs : list prog.
    Variable held : list ofd.
    Variables inp out : list N.
    Hypothesis Hlen : List.length progs = S n.
    Notation steps := (nsteps H h_wants h_event h_next h_resume h_open (s_np s) cap fds (sees ++ map holds held) (s_tab s') x (caller_pipe (s_tab s') x)).
    Notation pre := (forall r, RI r -> r_pend r <> [] -> exists r', drains H h_wants h_event h_next h_resume h_open r r' /\ List.length (r_pend r') < List.length (r_pend r)).
    Notation fin := (forall r, RI r -> r_pend r = [] -> r_wopen r = false -> exists r', drains H h_wants h_event h_next h_resume h_open r r' /\ r_phase r' = PAtEof).
    Lemma early_run es T ws cs0 ls t : facts cs progs inp out es T ws cs0 -> steps (starting h progs held inp) ls = Some t ->
      (exists rest, r_sent (n_rd t) ++ rest = out /\ (r_wopen (n_rd t) = false -> rest = [])) /\
      (exists rl, rsteps H h_wants h_event h_next h_resume h_open true (r_init H h) rl = Some (n_rd t)) /\
      (Forall careful progs -> 0 < cap -> pre -> fin -> exists ls' t', steps t ls' = Some t' /\ ended (r_out (n_rd t'))) /\
      (Forall careful progs -> (forall i, nth i (n_procs t) None = None) -> forall i, i <= n -> es i = Some false -> n_ok t = false) /\
      (T -> (forall i, i <= n -> es i = Some true) -> n_ok t = true) /\
      (Forall careful progs -> (forall i, i <= n -> es i <> None) -> List.length (filter proc_label ls) <= total cs0 n + List.length held).
    Proof.
      intros (F1 & F2 & F3 & F4). eapply chain_hyps; [exact HL|exact Hlen|]. intros A1 A2 A3 A4 A5 A6 A7 A8 A9 A10 A11 A12. unfold caller_pipe in *. rewrite A12 in *. intros E.
      pose (okf := fun _ : nat => false). pose (C := Forall careful progs).
      assert (Hokf : C -> forall i, es i = Some false -> okf i = false) by reflexivity.
      assert (I0 : inv H (s_np s) sees n RI out es okf C T (net_start H h progs inp) ws cs0).
      { apply inv_start; auto; [intros X; contradiction|]. intros i q Ei. destruct (F1 i q Ei) as (B1 & B2 & B3). split; [exact B1|]. split; [|split; [auto|exact B3]].
        intros HC. apply careful_heeds. unfold C in HC. rewrite Forall_forall in HC. apply HC. eapply nth_error_In; exact Ei. }
      assert (Lv : live (map Some progs) n = true).
      { unfold live. destruct (nth n (map Some progs) None) eqn:En; [reflexivity|]. assert (Z : nth n (map Some progs) None <> None); [|congruence].
        rewrite (nth_indep _ None (Some (Exits true))) by (rewrite map_length; lia). rewrite map_nth. discriminate. }
      set (qs0 := map Some (map holder held)).
      assert (Al : alive qs0 = List.length held) by (unfold qs0, alive; clear; induction held; cbn; congruence).
      assert (J0 : einv H (s_np s) fds sees n RI out es okf C T held (starting h progs held inp) ws cs0 (map Some progs) qs0 (fun _ => [])).
      { constructor.
        - unfold starting, net_start, qs0. cbn [n_procs]. apply map_app.
        - unfold qs0. now rewrite !map_length.
        - intros i q X. unfold qs0 in X. destruct (Nat.lt_ge_cases i (List.length held)) as [Hi|Hi]; [|rewrite nth_overflow in X by (rewrite !map_length; lia); discriminate].
          rewrite (nth_indep _ None (Some (Exits true))) in X by (rewrite !map_length; lia). rewrite map_nth in X. injection X as <-.
          change (Exits true) with (holder (OInit 0)). now rewrite map_nth.
        - reflexivity.
        - exact RI_start.
        - cbn [starting net_start n_rd r_init r_wopen]. now rewrite Lv.
        - assert (Eq : lte H n (starting h progs held inp) (map Some progs) (fun _ => []) = net_start H h progs inp) by (unfold lte, starting, net_start, setw; cbn [n_procs n_pipes n_in n_rd n_ok r_init r_h r_pend r_phase r_out r_sent]; rewrite Lv; reflexivity).
          rewrite Eq. exact I0. }
      edestruct (e_steps H h_wants h_event h_next h_resume h_open (s_np s) cap fds sees (s_tab s') x n) as (ws' & cs' & ps' & qs' & pi' & I & Tt & RL); try eassumption.
      pose proof (e_inv _ _ _ _ _ _ _ _ _ _ _ _ _ _ _ _ _ _ I) as J.
      split; [|split; [exact RL|split; [|split; [|split]]]].
      - exists (ws' n). split; [exact (i_sent _ _ _ _ _ _ _ _ _ _ _ _ _ J)|]. rewrite (e_wopen _ _ _ _ _ _ _ _ _ _ _ _ _ _ _ _ _ _ I). unfold live. destruct (nth n ps' None) eqn:En; [discriminate|].
        intros _. destruct (i_dead _ _ _ _ _ _ _ _ _ _ _ _ _ J n (le_n _) En) as [X|[X _]]; [exact X|lia].
      - intros HC Hc D1 D2. clear J0.
        destruct (holders_go H h_wants h_event h_next h_resume h_open (s_np s) cap fds sees (s_tab s') x n A1 A5 A6 A9 A10 RI RI_step out es okf C T held (alive qs') t ws' cs' ps' qs' pi' eq_refl I) as (l1 & t1 & qs1 & E1 & I1 & Al1).
        pose proof (e_inv _ _ _ _ _ _ _ _ _ _ _ _ _ _ _ _ _ _ I1) as J1. pose proof (alive_none _ Al1) as Nq.
        assert (J2 : inv H (s_np s) sees n RI out es okf C T (lte H n t1 ps' (n_pipes t1)) ws' cs').
        { eapply total_pipes; [exact A1|exact (e_agree _ _ _ _ _ _ _ _ _ _ _ _ _ _ _ _ _ _ I1)|exact J1]. }
        assert (Et : t1 = with_none H qs1 (lte H n t1 ps' (n_pipes t1))).
        { unfold with_none, lte. cbn [n_procs n_pipes n_in n_rd n_ok]. pose proof (e_procs _ _ _ _ _ _ _ _ _ _ _ _ _ _ _ _ _ _ I1) as Ep. pose proof (e_wopen _ _ _ _ _ _ _ _ _ _ _ _ _ _ _ _ _ _ I1) as Ew.
          rewrite some_live_none, orb_false_r in Ew by exact Nq. rewrite <- Ew, <- Ep. destruct t1 as [a b d r e]. cbn. now destruct r. }
        edestruct (finishes H h_wants h_event h_next h_resume h_open (s_np s) cap fds sees (s_tab s') x n) with (C := C) (s := lte H n t1 ps' (n_pipes t1)) (ws := ws') (cs := cs') as (l2 & t2 & E2 & X); try eassumption.
        pose proof (i_len _ _ _ _ _ _ _ _ _ _ _ _ _ J2) as L2.
        pose proof (none_steps H h_wants h_event h_next h_resume h_open (s_np s) cap fds sees (s_tab s') x n A1 held qs1 l2 _ _ Nq L2 E2) as E3. rewrite <- Et in E3.
        exists (l1 ++ l2), (with_none H qs1 t2). split; [|exact X]. now rewrite nsteps_app, E1.
      - intros HC Hd i Hi Ei. apply (i_status _ _ _ _ _ _ _ _ _ _ _ _ _ J HC i Hi); [|exact Ei]. cbn [lte n_procs]. specialize (Hd i). rewrite (e_procs _ _ _ _ _ _ _ _ _ _ _ _ _ _ _ _ _ _ I) in Hd.
        pose proof (i_len _ _ _ _ _ _ _ _ _ _ _ _ _ J) as Ln. cbn [lte n_procs] in Ln. now rewrite app_nth1 in Hd by lia.
      - intros HT HE. exact (i_ok _ _ _ _ _ _ _ _ _ _ _ _ _ J HT HE).
      - intros HC HE. specialize (Tt (conj HC HE)). lia.
    Qed.
  End Handler.
End Top.

Section Instances.
  Variable L : limits.
  Variable pf : ofd -> bool.
  Variables logfd maxfd : nat.
  Variable c : list string.
  Variable cs : list (list string).
  Variables s s' : st.
  Variable its : list item.
  Variable x : nat.
  Hypothesis HL : launched L pf logfd maxfd c cs s s' its x.
  Variables cap : nat.
  Variables progs : list prog.
  Variable held : list ofd.
  Variables inp out : list N.
  Hypothesis Hlen : List.length progs = S (List.length cs).
  Variable es : nat -> option bool.
  Variable T : Prop.
  Variable ws : nat -> list N.
  Variable cs0 : nat -> nat.
  Hypothesis HF : facts cs progs inp out es T ws cs0.
  Lemma early_bytes ls t : starting_bytes L logfd maxfd cap s s' its x held (starting byte_init progs held inp) ls = Some t ->
    (prefix (List.concat (items_of (r_out (n_rd t)))) out /\
     (ended (r_out (n_rd t)) -> List.concat (items_of (r_out (n_rd t))) = out)) /\
    (Forall careful progs -> 0 < cap -> exists ls' t', starting_bytes L logfd maxfd cap s s' its x held t ls' = Some t' /\ ended (r_out (n_rd t'))) /\
    verdict cs progs es T t /\
    (Forall careful progs -> (forall i, i <= List.length cs -> es i <> None) -> List.length (filter proc_label ls) <= total cs0 (List.length cs) + List.length held).
  Proof.
    intros E. destruct (early_run L pf logfd maxfd c cs s s' its x HL byte_handler byte_wants byte_event byte_next byte_resume bi_open BInv
      (fun r l r' I X => BInv_step true r l r' I X) b_open_w byte_init BInv_start cap progs held inp out Hlen es T ws cs0 ls t HF E) as ((rest & R1 & R2) & (rl & RS) & F & V1 & V2 & Fi).
    split; [|split; [exact (fun C0 H0 => F C0 H0 byte_D1 byte_D2)|split; [|exact Fi]]].
    2: { apply to_verdict; [|exact V1|exact V2]. eapply end_gone_steps; [|exact E]. split; [intros [[]|[]]|split; intros []]. }
    destruct (bytes_delivered true rl (n_rd t) RS) as [(p & P) Q]. pose proof (BInv_steps true rl _ _ BInv_start RS) as I. split.
    - exists (p ++ rest). rewrite app_assoc, <- P. now symmetry.
    - intros X. rewrite (Q X). destruct (b_end _ I X) as [X1 _]. destruct (b_eof _ I X1) as [_ X2]. rewrite (R2 X2) in R1. now rewrite app_nil_r in R1.
  Qed.
  Lemma early_lines ls t : starting_lines L logfd maxfd cap s s' its x held (starting line_init progs held inp) ls = Some t ->
    (forall lines, is_lines out lines -> prefix (items_of (r_out (n_rd t))) lines /\
     (ended (r_out (n_rd t)) -> items_of (r_out (n_rd t)) = lines)) /\
    (Forall careful progs -> 0 < cap -> exists ls' t', starting_lines L logfd maxfd cap s s' its x held t ls' = Some t' /\ ended (r_out (n_rd t'))) /\
    verdict cs progs es T t /\
    (Forall careful progs -> (forall i, i <= List.length cs -> es i <> None) -> List.length (filter proc_label ls) <= total cs0 (List.length cs) + List.length held).
  Proof.
    intros E. destruct (early_run L pf logfd maxfd c cs s s' its x HL line_handler line_wants line_event line_next line_next li_open LInv
      (fun r l r' I X => LInv_step true r l r' I X) l_open_w line_init LInv_start cap progs held inp out Hlen es T ws cs0 ls t HF E) as ((rest & R1 & R2) & (rl & RS) & F & V1 & V2 & Fi).
    split; [|split; [exact (fun C0 H0 => F C0 H0 (fun r I P => line_D1 _ r I (le_n _) P) (fun r I P W => line_D2 _ r I (le_n _) P W))|split; [|exact Fi]]].
    2: { apply to_verdict; [|exact V1|exact V2]. eapply end_gone_steps; [|exact E]. split; [intros [[]|[]]|split; intros []]. }
    intros lines HLs. pose proof (LInv_steps true rl _ _ LInv_start RS) as I.
    destruct (li_eof (r_h (n_rd t))) eqn:Ee.
    - destruct (l_eof _ I Ee) as [_ W]. rewrite (R2 W), app_nil_r in R1. subst out. apply (lines_delivered true rl); [exact RS|exact HLs].
    - split; [|intros X; destruct (l_end _ I X); congruence].
      destruct (l_data _ I) as [D|[D1 _]]; [|congruence].
      assert (D' : joined (items_of (r_out (n_rd t))) ++ (li_buf (r_h (n_rd t)) ++ r_pend (n_rd t)) ++ rest = out) by (rewrite <- R1, <- D, !app_assoc; reflexivity).
      destruct HLs as [Hf [HE|[HE _]]]; fold (joined lines) in HE; rewrite <- D' in HE.
      + eapply joined_prefix; [apply I|exact Hf|]. symmetry. exact HE.
      + eapply joined_prefix; [apply I|exact Hf|]. rewrite <- app_assoc in HE. symmetry. exact HE.
  Qed.
End Instances.
