(** Lemmas for C112: from a started pipeline to what is left of it. *)
From Verif Require Import Py RedirModel Os PerformModel PerformSpec RunModel RunSpec RunTopSpec RunEnds IterModel IterSpec IterProofs NetModel NetSpec NetProofs NetTop LeaveSpec LeaveProofs SyncModel SyncSpec SyncProofs.

(** The reader of bytes(): at most one read has been made. *)
Definition XB (r : byte_state) : Prop :=
  (bi_eof (r_h r) = true -> bi_buf (r_h r) = Some []) /\ (forall b, bi_buf (r_h r) = Some b -> List.length b <= 1024).
Lemma XB_feed (r : byte_state) d w : XB r -> XB (mkR (r_h r) (r_pend r ++ d) w (r_phase r) (r_out r) (r_sent r ++ d)).
Proof. intros A. exact A. Qed.
Lemma XB_read (r : byte_state) m r' : BInv r -> r_phase r = PIdle -> XB r ->
  rstep byte_handler byte_wants byte_event byte_next byte_resume bi_open true r (LReadable m) = Some r' -> XB r' /\ r_phase r' = PIdle.
Proof.
  intros I P [A B] E. assert (Fu : bi_fut (r_h r) = false) by (apply (b_nowait _ I); congruence). cbn [rstep] in E.
  destruct (readable _ _ _) eqn:Rd; [|discriminate]. unfold byte_wants in E. destruct (bi_buf (r_h r)) as [b|] eqn:Eb.
  - unfold byte_event, byte_wants in E. rewrite Eb, Fu in E. injection E as <-. split; [|exact P]. unfold XB. cbn [r_h bi_buf bi_eof]. rewrite Eb. split; [exact A|exact B].
  - destruct (read_ok _ _ _) eqn:Ro; [|discriminate]. unfold byte_event, byte_wants in E. rewrite Eb in E. cbn [bi_fut bi_buf bi_eof bi_open] in E. rewrite Fu in E. injection E as <-.
    split; [|exact P]. unfold XB. cbn [r_h bi_buf bi_eof].
    assert (Lm : m <= 1024). { unfold read_ok in Ro. destruct (r_pend r); [apply andb_prop in Ro as [_ Ro]; apply Nat.eqb_eq in Ro; lia|]. apply andb_prop in Ro as [Ro _]. apply andb_prop in Ro as [_ Ro]. now apply Nat.leb_le in Ro. }
    split.
    + destruct (bi_eof (r_h r)) eqn:Ee; [intros _; discriminate (A eq_refl)|]. cbn. destruct (firstn m (r_pend r)); [reflexivity|discriminate].
    + intros b X. injection X as <-. rewrite firstn_length. lia.
Qed.
Lemma XB_start : XB (r_init byte_handler byte_init).
Proof. split; [intros Y; discriminate Y|intros b Y; discriminate Y]. Qed.
(** That of a loop: nothing is read once there is a newline. *)
Definition XL (r : line_state) : Prop := li_eof (r_h r) = true -> has_nl (li_buf (r_h r)) = false.
Lemma XL_feed (r : line_state) d w : XL r -> XL (mkR (r_h r) (r_pend r ++ d) w (r_phase r) (r_out r) (r_sent r ++ d)).
Proof. intros A. exact A. Qed.
Lemma XL_read (r : line_state) m r' : LInv r -> r_phase r = PIdle -> XL r ->
  rstep line_handler line_wants line_event line_next line_next li_open true r (LReadable m) = Some r' -> XL r' /\ r_phase r' = PIdle.
Proof.
  intros I P A E. assert (Fu : li_fut (r_h r) = false) by (apply (l_nowait _ I); congruence). cbn [rstep] in E.
  destruct (readable _ _ _) eqn:Rd; [|discriminate]. destruct (line_wants (r_h r)) eqn:W.
  - destruct (read_ok _ _ _); [|discriminate]. unfold line_event in E. rewrite W, Fu in E. injection E as <-. split; [|exact P]. unfold XL. cbn [r_h li_eof li_buf].
    unfold readable in Rd. apply andb_prop in Rd as [Op _]. rewrite (l_open _ I) in Op. apply negb_true_iff in Op. rewrite Op. cbn.
    destruct (firstn m (r_pend r)); [|discriminate]. intros _. rewrite app_nil_r. unfold line_wants in W. now apply negb_true_iff in W.
  - unfold line_event in E. rewrite W in E. injection E as <-. split; [exact A|exact P].
Qed.
Lemma XL_start : XL (r_init line_handler line_init).
Proof. intros Y. discriminate Y. Qed.

Section Top.
  Variable L : limits.
  Variable pf : ofd -> bool.
  Variables logfd maxfd : nat.
  Variable c : list string.
  Variable cs : list (list string).
  Variables s s' : st.
  Variable its : list item.
  Variable x : nat.
  Hypothesis HL : launched L pf logfd maxfd c cs s s' its x.
  Notation n := (List.length cs).
  Variable cap : nat.
  Variable progs : list prog.
  Variables inp out : list N.
  Variable oks : list bool.
  Hypothesis Hl : List.length progs = S n.
  Hypothesis Ha : all_do progs inp out oks.

  Lemma unasked_run (H : Type) h_wants h_event h_next h_resume h_open (RI X : rstate H -> Prop) h
    (RI_step : forall r l r', RI r -> rstep H h_wants h_event h_next h_resume h_open true r l = Some r' -> RI r')
    (RI_open : forall r, RI r -> h_open (r_h r) = false -> r_wopen r = false)
    (RI_start : RI (r_init H h)) (X_start : X (r_init H h))
    (X_feed : forall r d w, X r -> X (mkR (r_h r) (r_pend r ++ d) w (r_phase r) (r_out r) (r_sent r ++ d)))
    (X_read : forall r m r', RI r -> r_phase r = PIdle -> X r -> rstep H h_wants h_event h_next h_resume h_open true r (LReadable m) = Some r' -> X r' /\ r_phase r' = PIdle) ls t :
    asked ls = 0 ->
    nsteps H h_wants h_event h_next h_resume h_open (s_np s) cap (proc_fds logfd maxfd) (map (item_sees L logfd maxfd) its) (s_tab s') x (caller_pipe (s_tab s') x) (net_start H h progs inp) ls = Some t ->
    unasked H cap X t /\ RI (n_rd t) /\ (nth n (n_procs t) None = None -> r_wopen (n_rd t) = false) /\
    (r_wopen (n_rd t) = false -> r_sent (n_rd t) = out).
  Proof.
    intros As. destruct (do_facts cs progs inp out Hl oks Ha) as (ws & cs0 & F1 & F2 & F3 & F4).
    apply (chain_hyps L pf logfd maxfd c cs s s' its x HL progs Hl). intros A1 A2 A3 A4 A5 A6 A7 A8 A9 A10 A11 A12. unfold caller_pipe in *. rewrite A12 in *.
    set (es := fun i => nth_error oks i) in *. pose (okf := fun _ : nat => false).
    assert (Hokf : False -> forall i, es i = Some false -> okf i = false) by contradiction.
    set (Inv := fun u => exists ws cs1, inv H (s_np s) (map (item_sees L logfd maxfd) its) n RI out es okf False (others_read progs inp) u ws cs1).
    assert (I0 : Inv (net_start H h progs inp)).
    { exists ws, cs0. apply inv_start; auto; [intros Y; contradiction|]. intros i p Ei. destruct (F1 i p Ei) as (B1 & B2 & B3). split; [exact B1|]. split; [contradiction|split; [contradiction|exact B3] ]. }
    assert (U0 : unasked H cap X (net_start H h progs inp)) by (split; [reflexivity|split; [reflexivity|split; [apply Nat.le_0_l|exact X_start] ] ]).
    revert I0 U0. generalize (net_start H h progs inp). revert As. induction ls as [|l ls IH]; intros As u I U; cbn [nsteps].
    - intros E. injection E as <-. destruct I as (w1 & c1 & I). split; [exact U|]. split; [apply I|].
      assert (W := i_wopen _ _ _ _ _ _ _ _ _ _ _ _ _ I). split; [intros En; rewrite W; unfold live; now rewrite En|].
      intros Wf. rewrite W in Wf. unfold live in Wf. destruct (nth n (n_procs u) None) eqn:En; [discriminate|].
      rewrite <- (i_sent _ _ _ _ _ _ _ _ _ _ _ _ _ I). destruct (i_dead _ _ _ _ _ _ _ _ _ _ _ _ _ I n (le_n _) En) as [->|[Y _] ]; [now rewrite app_nil_r|lia].
    - unfold asked in As. cbn [filter] in As. destruct (asks l) eqn:Al; [discriminate|]. destruct (nstep _ _ _ _ _ _ _ _ _ _ _ _ _ u l) as [u1|] eqn:E; [|discriminate]. apply IH; [exact As| |].
      + destruct I as (w1 & c1 & I).
        destruct (inv_nstep H h_wants h_event h_next h_resume h_open (s_np s) cap (proc_fds logfd maxfd) (map (item_sees L logfd maxfd) its) (s_tab s') x n A1 A2 A4 A5 A6 A7 A8 A9 A10 A11 A12 RI
          RI_step RI_open out es okf False (others_read progs inp) F3 F4 Hokf u w1 c1 l u1 I E) as (w2 & c2 & I2 & _). exists w2, c2. exact I2.
      + destruct I as (w1 & c1 & I). eapply (unasked_step H h_wants h_event h_next h_resume h_open (s_np s) cap (proc_fds logfd maxfd) (map (item_sees L logfd maxfd) its) (s_tab s') x n);
          [exact A1|exact A2|exact A4|exact A5|exact X_feed|exact X_read|apply I|apply I|exact Al|exact U|exact E].
  Qed.

  Lemma unasked_bytes ls t : asked ls = 0 ->
    bytes_run L logfd maxfd cap s s' its x (net_start byte_handler byte_init progs inp) ls = Some t ->
    r_out (n_rd t) = [] /\ (out <> [] -> bi_open (r_h (n_rd t)) = true) /\ (cap + 1024 < List.length out -> nth n (n_procs t) None <> None).
  Proof.
    intros As E. destruct (unasked_run byte_handler byte_wants byte_event byte_next byte_resume bi_open BInv XB byte_init
      (fun r l r' I0 Y => BInv_step true r l r' I0 Y) b_open_w BInv_start XB_start XB_feed XB_read ls t As E) as ((P & O & B & A1 & A2) & I & W1 & W2).
    split; [exact O|]. assert (D := b_data _ I). rewrite O in D. cbn [items_of List.concat] in D. split.
    - intros Ne. rewrite (b_open _ I). destruct (bi_eof (r_h (n_rd t))) eqn:Ee; [|reflexivity]. destruct (b_eof _ I Ee) as [Pn Wf]. rewrite (A1 eq_refl), Pn in D. cbn in D. rewrite W2 in D by exact Wf. congruence.
    - intros Big En. assert (So := W2 (W1 En)). rewrite So in D. rewrite <- D in Big. rewrite !app_length in Big. cbn [items_of flat_map List.concat List.length] in Big.
      destruct (bi_buf (r_h (n_rd t))) as [b|] eqn:Eb; [specialize (A2 b eq_refl); unfold bytes in *; lia|cbn in Big; unfold bytes in *; lia].
  Qed.
  Lemma unasked_lines ls t : asked ls = 0 ->
    lines_run L logfd maxfd cap s s' its x (net_start line_handler line_init progs inp) ls = Some t ->
    r_out (n_rd t) = [] /\ (In nl out -> li_open (r_h (n_rd t)) = true).
  Proof.
    intros As E. destruct (unasked_run line_handler line_wants line_event line_next line_next li_open LInv XL line_init
      (fun r l r' I0 Y => LInv_step true r l r' I0 Y) l_open_w LInv_start XL_start XL_feed XL_read ls t As E) as ((P & O & B & A1) & I & W1 & W2).
    split; [exact O|]. intros Hn. rewrite (l_open _ I). destruct (li_eof (r_h (n_rd t))) eqn:Ee; [|reflexivity]. destruct (l_eof _ I Ee) as [Pn Wf].
    assert (Eo := W2 Wf). rewrite <- Eo in Hn. exfalso. destruct (l_data _ I) as [D|(_ & _ & D & _)].
    - rewrite O, Pn in D. cbn [items_of joined List.concat map List.app] in D. rewrite app_nil_r in D. rewrite <- D in Hn.
      assert (X : has_nl (li_buf (r_h (n_rd t))) = true) by (unfold has_nl; apply existsb_exists; exists nl; split; [exact Hn|apply N.eqb_refl]). rewrite (A1 Ee) in X. discriminate.
    - rewrite O in D. cbn in D. destruct (r_sent (n_rd t)); discriminate.
  Qed.
End Top.
