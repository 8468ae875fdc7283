(** Lemmas for C96: an iteration that is not asked for further items. *)
From Verif Require Import Py RedirModel Os PerformModel PerformSpec RunModel RunSpec RunTopSpec RunEnds IterModel IterSpec IterProofs NetModel NetSpec NetProofs NetTop MixSpec LeaveSpec.

Lemma count_joined (ls : list bytes) : Forall (fun l => ~ In nl l) ls -> count_occ N.eq_dec (joined ls) nl = List.length ls.
Proof.
  induction 1 as [|l ls Hl F IH]; [reflexivity|]. unfold joined in *. cbn [map List.concat List.length].
  rewrite count_occ_app, count_occ_app, IH. rewrite (proj1 (count_occ_not_In N.eq_dec l nl) Hl). cbn. destruct (N.eq_dec nl nl); [reflexivity|congruence].
Qed.
Lemma count_no_nl b : has_nl b = false -> count_occ N.eq_dec b nl = 0.
Proof.
  intros Hb. apply count_occ_not_In. intros X. unfold has_nl in Hb. assert (Y : existsb (N.eqb nl) b = true) by (apply existsb_exists; exists nl; split; [exact X|apply N.eqb_refl]). congruence.
Qed.
(** A part of something that goes on as [first] does has fewer newlines only if it is shorter. *)
Lemma shorter (a z first rest : list N) : (exists y, a ++ z ++ y = first ++ rest) \/ (exists y, a ++ z = first ++ rest ++ y) ->
  count_occ N.eq_dec a nl < count_occ N.eq_dec first nl -> List.length a < List.length first.
Proof.
  intros X C. assert (Y : exists u v, a ++ u = first ++ v) by (destruct X as [[y X]|[y X] ]; eauto). clear X z rest. destruct Y as (u & v & E).
  destruct (Nat.lt_ge_cases (List.length a) (List.length first)) as [|Ge]; [assumption|]. exfalso.
  assert (F : firstn (List.length first) a = first).
  { assert (G : firstn (List.length first) (a ++ u) = firstn (List.length first) (first ++ v)) by now rewrite E.
    rewrite !firstn_app, Nat.sub_diag, firstn_all in G. replace (List.length first - List.length a) with 0 in G by lia. cbn in G. now rewrite !app_nil_r in G. }
  rewrite <- (firstn_skipn (List.length first) a), count_occ_app, F in C. lia.
Qed.

Section Leave.
  Variables np cap : nat.
  Variable fds : list nat.
  Variable sees : list (nat -> option ofd).
  Variable shell : tab.
  Variables x n : nat.
  Notation K := (np + n).
  Notation see i := (nth i sees (fun _ => None)).
  Notation netL := (net line_handler).
  Notation rstepL := (rstep line_handler line_wants line_event line_next line_next li_open true).
  Notation nstepL := (nstep line_handler line_wants line_event line_next line_next li_open np cap fds sees shell x K).
  Notation nstepsL := (nsteps line_handler line_wants line_event line_next line_next li_open np cap fds sees shell x K).
  Notation proc_stepL := (proc_step line_handler li_open np cap fds sees shell x K).
  Hypothesis Hlen : List.length sees = S n.
  Hypothesis Hin0 : forall k, see 0 0 = Some (OPipeR k) -> k < np.
  Hypothesis HinS : forall j, j < n -> see (S j) 0 = Some (OPipeR (np + j)).
  Hypothesis Hout : forall i, i <= n -> see i 1 = Some (OPipeW (np + i)).
  Hypothesis Hw : forall i m k, i <= n -> In m fds -> np <= k -> see i m = Some (OPipeW k) -> k = np + i.
  Hypothesis Hr : forall i m k, i <= n -> In m fds -> np <= k -> see i m = Some (OPipeR k) -> exists j, i = S j /\ k = np + j.
  Hypothesis H0 : In 0 fds.
  Hypothesis H1 : In 1 fds.
  Hypothesis Hsw : forall m k, refers shell m = Some (OPipeW k) -> k < np.
  Hypothesis Hsr : forall m k, refers shell m = Some (OPipeR k) -> np <= k -> m = x.
  Hypothesis Hx : refers shell x = Some (OPipeR K).

  (** What a process does to the reader's pipe. *)
  Lemma proc_rd s i s' : i <= n -> proc_stepL s i = Some s' ->
    exists d w, n_rd s' = mkR (r_h (n_rd s)) (r_pend (n_rd s) ++ d) w (r_phase (n_rd s)) (r_out (n_rd s)) (r_sent (n_rd s) ++ d) /\
      (d = [] \/ List.length (r_pend (n_rd s)) < cap /\ exists b f, d = [b] /\ i = n /\ nth n (n_procs s) None = Some (Writes b f) /\ nth n (n_procs s') None = Some (f true)).
  Proof.
    intros Hi E. assert (Same : forall r, r = mkR (r_h r) (r_pend r ++ []) (r_wopen r) (r_phase r) (r_out r) (r_sent r ++ []) :> rstate line_handler) by (intros [? ? ? ? ? ?]; cbn; now rewrite !app_nil_r).
    unfold proc_step in E. destruct (nth i (n_procs s) None) as [q|] eqn:Eq; [|discriminate]. pose proof (nth_some_lt _ _ _ Eq) as Lt. destruct q as [f|b f|ok].
    - exists [], (r_wopen (n_rd s)). split; [|now left]. rewrite <- Same. destruct i as [|j].
      + destruct (see 0 0) as [[?|k'|?|? ?|?]|] eqn:E0; try (destruct (n_in s); injection E as <-; reflexivity); try (injection E as <-; reflexivity).
        assert (Ek : k' < np) by now apply Hin0. unfold ours in E. destruct (Nat.leb_spec np k'); [lia|]. destruct (n_in s); injection E as <-; reflexivity.
      + rewrite (HinS j) in E by lia. unfold ours in E. destruct (Nat.leb_spec np (np + j)); [|lia]. unfold content in E. assert (Nk : (np + j =? K) = false) by (apply Nat.eqb_neq; lia). rewrite Nk in E. destruct (n_pipes s (np + j)).
        * destruct (writer_left _ _ _ _ _ _ s _ _); [discriminate|]. injection E as <-. reflexivity.
        * injection E as <-. cbn. unfold pop. rewrite Nk. reflexivity.
    - rewrite Hout in E by lia. unfold ours in E. destruct (Nat.leb_spec np (np + i)); [|lia]. destruct (negb _).
      { injection E as <-. exists [], (r_wopen (n_rd s)). split; [cbn; apply Same|now left]. }
      destruct (Nat.ltb_spec (List.length (content line_handler K s (np + i))) cap) as [Lc|]; [|discriminate]. injection E as <-. unfold push, content in *.
      destruct (Nat.eqb_spec (np + i) K) as [Ei|Ne]; cbn.
      + assert (i = n) as -> by lia. exists [b], (r_wopen (n_rd s)). split; [reflexivity|]. right. split; [exact Lc|]. exists b, f. rewrite nth_set_nth by exact Lt. rewrite Nat.eqb_refl. auto.
      + exists [], (r_wopen (n_rd s)). split; [apply Same|now left].
    - injection E as <-. exists [], (r_wopen (n_rd s) && writer_left line_handler li_open fds sees shell x s (set_nth (n_procs s) i None) K). split; [|now left]. cbn. now rewrite !app_nil_r.
  Qed.

  Section Stuck.
    Variables first rest : list N.
    Variable q : nat.
    Hypothesis Hq : q < count_occ N.eq_dec first nl.
    Hypothesis Hbig : cap + 1023 < List.length rest.
    Variable Good : netL -> Prop.
    Hypothesis Good_step : forall s l s', Good s -> nstepL s l = Some s' -> Good s'.
    Hypothesis Good_inv : forall s, Good s -> LInv (n_rd s) /\ List.length (n_procs s) = S n /\ r_wopen (n_rd s) = live (n_procs s) n /\
      ((exists y, r_sent (n_rd s) ++ y = first ++ rest) \/ (exists y, r_sent (n_rd s) = first ++ rest ++ y)) /\
      (r_wopen (n_rd s) = false -> exists y, r_sent (n_rd s) = first ++ rest ++ y).
    Definition busy_now (p : phase) : nat := match p with PIdle => 0 | _ => 1 end.
    Definition stuck (k : nat) (s : netL) : Prop :=
      Good s /\ List.length (r_pend (n_rd s)) <= cap /\ li_eof (r_h (n_rd s)) = false /\
      List.length (r_sent (n_rd s)) <= List.length first + 1023 + List.length (r_pend (n_rd s)) /\
      List.length (items_of (r_out (n_rd s))) + busy_now (r_phase (n_rd s)) + k <= q /\ ~ ended (r_out (n_rd s)).
    Lemma stuck_open k s : stuck k s -> r_wopen (n_rd s) = true.
    Proof.
      intros (G & P & E & B & _). destruct (r_wopen (n_rd s)) eqn:W; [reflexivity|]. destruct (Good_inv s G) as (_ & _ & _ & _ & X). destruct (X W) as [y Y].
      rewrite Y, !app_length in B. lia.
    Qed.
    Lemma next_facts (r r' : rstate line_handler) : li_eof (r_h r) = false -> r' = after line_handler true r (line_next (r_h r)) ->
      li_eof (r_h r') = false /\ r_pend r' = r_pend r /\ r_sent r' = r_sent r /\
      List.length (items_of (r_out r')) + busy_now (r_phase r') <= S (List.length (items_of (r_out r))) /\ (ended (r_out r') -> ended (r_out r)).
    Proof.
      intros Ee. unfold line_next. rewrite Ee. destruct (has_nl (li_buf (r_h r))) eqn:En; cbn [negb andb].
      - destruct (li_buf (r_h r)) as [|b0 bb] eqn:Eb; [discriminate En|]. cbv zeta. destruct (split1 (b0 :: bb)) as [l r1]. intros ->. cbn [after r_h r_pend r_sent r_out r_phase li_eof busy_now].
        rewrite items_of_item, app_length. cbn [List.length]. repeat split; auto; [lia|]. intros [X|X]; apply in_app_iff in X as [X|[X|[]]]; try discriminate; [now left|now right].
      - intros ->. cbn [after r_h r_pend r_sent r_out r_phase li_eof busy_now]. repeat split; auto; lia.
    Qed.
    Lemma stuck_step k s l s' : stuck (k + if asks l then 1 else 0) s -> nstepL s l = Some s' -> stuck k s'.
    Proof.
      intros St E. pose proof (stuck_open _ _ St) as W. assert (St' := St). destruct St as (G & P & Ee & B & C & Ne). pose proof (Good_step _ _ _ G E) as G'.
      destruct (Good_inv s G) as (LI & Ln & _ & Cmp & _). unfold nstep in E. destruct (negb (may line_handler s l)); [discriminate|]. destruct l as [i|m| | |ok]; cbn [asks reader_label] in *.
      - rewrite Nat.add_0_r in *. assert (Hi : i <= n).
        { unfold proc_step in E. destruct (nth i (n_procs s) None) eqn:Eq; [|discriminate]. apply nth_some_lt in Eq. lia. }
        destruct (proc_rd s i s' Hi E) as (d & w & R & D). split; [exact G'|]. rewrite R. cbn [r_pend r_h r_sent r_out r_phase]. rewrite !app_length.
        assert (Ld : d = [] \/ List.length d = 1 /\ List.length (r_pend (n_rd s)) < cap) by (destruct D as [->|(X & b & f & -> & _)]; auto).
        repeat split; auto; destruct Ld as [->|[-> ?] ]; cbn; lia.
      - rewrite Nat.add_0_r in *. cbn [rstep] in E. destruct (readable _ _ _) eqn:Rd; [|discriminate]. destruct (line_wants (r_h (n_rd s))) eqn:Wn.
        + destruct (read_ok _ _ m) eqn:Ro; [|discriminate]. unfold line_event in E. rewrite Wn in E. injection E as <-. split; [exact G'|]. cbn [n_rd r_pend r_h r_sent r_out r_phase li_eof].
          unfold line_wants in Wn. apply negb_true_iff in Wn.
          assert (Pn : r_pend (n_rd s) <> []) by (unfold readable in Rd; rewrite W in Rd; intros X; rewrite X in Rd; rewrite andb_false_r in Rd; discriminate).
          unfold read_ok in Ro. destruct (r_pend (n_rd s)) as [|b0 bb] eqn:Ep; [congruence|]. rewrite <- Ep in *. apply andb_prop in Ro as [Ro1 Ro3]. apply andb_prop in Ro1 as [Ro1 Ro2]. apply Nat.leb_le in Ro1, Ro2, Ro3.
          assert (Hf : firstn m (r_pend (n_rd s)) <> []) by (rewrite Ep; destruct m; [lia|discriminate]).
          destruct (l_data _ LI) as [D|[X _] ]; [|congruence].
          assert (Sh : List.length (joined (items_of (r_out (n_rd s))) ++ li_buf (r_h (n_rd s))) < List.length first).
          { apply (shorter _ (r_pend (n_rd s)) first rest).
            - destruct Cmp as [[y Y]|[y Y] ]; [left|right]; exists y; rewrite <- Y, <- D, <- ?app_assoc; reflexivity.
            - rewrite count_occ_app, count_joined by apply LI. rewrite count_no_nl by exact Wn. lia. }
          assert (Ls : List.length (r_sent (n_rd s)) = List.length (joined (items_of (r_out (n_rd s))) ++ li_buf (r_h (n_rd s))) + List.length (r_pend (n_rd s))) by (rewrite <- D, !app_length; lia).
          rewrite skipn_length. split; [lia|]. split; [rewrite Ee; destruct (firstn m (r_pend (n_rd s))); [congruence|reflexivity]|]. split; [lia|]. split; [|exact Ne].
          destruct (li_fut (r_h (n_rd s))) eqn:Ef; [|lia]. destruct (r_phase (n_rd s)) eqn:Ph; cbn in *; try lia. rewrite (l_nowait _ LI) in Ef by congruence. discriminate.
        + unfold line_event in E. rewrite Wn in E. injection E as <-. split; [exact G'|]. cbn. auto.
      - cbn [rstep] in E. destruct (r_phase (n_rd s)) eqn:Ph; try discriminate. injection E as <-.
        destruct (next_facts _ _ Ee eq_refl) as (Z1 & Z2 & Z3 & Z5 & Z6).
        split; [exact G'|]. cbn [n_rd]. rewrite Z1, Z2, Z3. cbn [busy_now] in C. repeat split; auto. lia.
      - rewrite Nat.add_0_r in *. cbn [rstep] in E. destruct (r_phase (n_rd s)) eqn:Ph; try discriminate. injection E as <-.
        destruct (next_facts _ _ Ee eq_refl) as (Z1 & Z2 & Z3 & Z5 & Z6).
        split; [exact G'|]. cbn [n_rd]. rewrite Z1, Z2, Z3. cbn [busy_now] in C. repeat split; auto. lia.
      - rewrite Nat.add_0_r in *. cbn [rstep] in E. destruct (r_phase (n_rd s)) eqn:Ph; try discriminate. destruct (l_ateof _ LI Ph) as [X _]. congruence.
    Qed.
    Lemma stuck_steps ls : forall s s', stuck (asked ls) s -> nstepsL s ls = Some s' -> stuck 0 s'.
    Proof.
      induction ls as [|l ls IH]; intros s s' St; cbn [nsteps]; [intros E; now injection E as <-|]. destruct (nstepL s l) as [s1|] eqn:E; [|discriminate].
      apply IH. eapply stuck_step; [|exact E]. unfold asked in *. cbn [filter] in St. destruct (asks l); cbn [List.length] in St; [now rewrite Nat.add_comm|now rewrite Nat.add_0_r].
    Qed.
    Lemma stuck_end ls progs inp t : Good (net_start line_handler line_init progs inp) -> asked ls <= q ->
      nstepsL (net_start line_handler line_init progs inp) ls = Some t ->
      ~ ended (r_out (n_rd t)) /\ li_open (r_h (n_rd t)) = true /\ nth n (n_procs t) None <> None.
    Proof.
      intros G A E. assert (St : stuck 0 t).
      { eapply stuck_steps; [|exact E]. split; [exact G|]. cbn. split; [lia|]. split; [reflexivity|]. split; [lia|]. split; [lia|]. intros [[]|[]]. }
      pose proof (stuck_open _ _ St) as W. destruct St as (G' & _ & Ee & _ & _ & Ne). destruct (Good_inv t G') as (LI & _ & Wl & _). split; [exact Ne|]. split.
      - rewrite (l_open _ LI), Ee. reflexivity.
      - rewrite Wl in W. unfold live in W. destruct (nth n (n_procs t) None); [discriminate|discriminate].
    Qed.
  End Stuck.
End Leave.
