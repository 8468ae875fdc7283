(** C96 for started pipelines. *)
From Verif Require Import Py RedirModel Os PerformModel PerformSpec RunModel RunSpec RunTopSpec RunEnds IterModel IterSpec IterProofs NetModel NetSpec NetProofs NetTop MixSpec LeaveSpec LeaveProofs.

(** *** A program that writes first, whatever it reads. *)
Section First.
  Variables np cap : nat.
  Variable fds : list nat.
  Variable sees : list (nat -> option ofd).
  Variable shell : tab.
  Variables x n : nat.
  Notation K := (np + n).
  Notation see i := (nth i sees (fun _ => None)).
  Notation netL := (net line_handler).
  Notation rstepL := (rstep line_handler line_wants line_event line_next line_next li_open true).
  Notation nstepL := (nstep line_handler line_wants line_event line_next line_next li_open np cap fds sees shell x K).
  Notation nstepsL := (nsteps line_handler line_wants line_event line_next line_next li_open np cap fds sees shell x K).
  Notation proc_stepL := (proc_step line_handler li_open np cap fds sees shell x K).
  Hypothesis Hlen : List.length sees = S n.
  Hypothesis Hin0 : forall k, see 0 0 = Some (OPipeR k) -> k < np.
  Hypothesis HinS : forall j, j < n -> see (S j) 0 = Some (OPipeR (np + j)).
  Hypothesis Hout : forall i, i <= n -> see i 1 = Some (OPipeW (np + i)).
  Hypothesis Hw : forall i m k, i <= n -> In m fds -> np <= k -> see i m = Some (OPipeW k) -> k = np + i.
  Hypothesis Hr : forall i m k, i <= n -> In m fds -> np <= k -> see i m = Some (OPipeR k) -> exists j, i = S j /\ k = np + j.
  Hypothesis H0 : In 0 fds.
  Hypothesis H1 : In 1 fds.
  Hypothesis Hsw : forall m k, refers shell m = Some (OPipeW k) -> k < np.
  Hypothesis Hsr : forall m k, refers shell m = Some (OPipeR k) -> np <= k -> m = x.
  Hypothesis Hx : refers shell x = Some (OPipeR K).
  Variable W : list N.
  Definition wgood (s : netL) : Prop :=
    LInv (n_rd s) /\ List.length (n_procs s) = S n /\ r_wopen (n_rd s) = live (n_procs s) n /\
    ((exists q w, nth n (n_procs s) None = Some q /\ writes_first q w /\ r_sent (n_rd s) ++ w = W) \/ (exists y, r_sent (n_rd s) = W ++ y)).
  (** Steps of processes keep what the reader relies on. *)
  Lemma proc_reader s i s' : LInv (n_rd s) -> List.length (n_procs s) = S n -> r_wopen (n_rd s) = live (n_procs s) n -> i <= n -> proc_stepL s i = Some s' ->
    LInv (n_rd s') /\ r_wopen (n_rd s') = live (n_procs s') n.
  Proof.
    intros LI Ln Wo Hi E. assert (Lt : i < List.length (n_procs s)) by lia.
    assert (Same : r_wopen (n_rd s') = live (n_procs s') n /\ (n_rd s' = n_rd s \/ (exists b, r_wopen (n_rd s) = true /\ n_rd s' = with_pend _ (n_rd s) (r_pend (n_rd s) ++ [b]) (r_sent (n_rd s) ++ [b])) \/
       r_wopen (n_rd s) = true /\ n_rd s' = mkR (r_h (n_rd s)) (r_pend (n_rd s)) false (r_phase (n_rd s)) (r_out (n_rd s)) (r_sent (n_rd s)))).
    { assert (E' := E). unfold proc_step in E. destruct (nth i (n_procs s) None) as [q|] eqn:Eq; [|discriminate].
      assert (Lv : forall p, live (set_nth (n_procs s) i (Some p)) n = live (n_procs s) n).
      { intros p. unfold live. rewrite nth_set_nth by exact Lt. destruct (Nat.eqb_spec n i) as [->|Ne]; [now rewrite Eq|reflexivity]. }
      destruct q as [f|b f|ok].
      - assert (Bc : exists s1 p, n_rd s1 = n_rd s /\ n_procs s1 = n_procs s /\ s' = becomes _ s1 i p).
        { destruct i as [|j].
          + destruct (see 0 0) as [[?|k'|?|? ?|?]|] eqn:E0; try (destruct (n_in s); injection E as <-; eauto; eexists; eexists; split; [|split; [|reflexivity]]; reflexivity).
            * assert (Ek : k' < np) by now apply Hin0. unfold ours in E. destruct (Nat.leb_spec np k'); [lia|]. destruct (n_in s); injection E as <-; eexists; eexists; (split; [|split; [|reflexivity]]; reflexivity).
            * injection E as <-. eexists; eexists; (split; [|split; [|reflexivity]]; reflexivity).
          + rewrite (HinS j) in E by lia. unfold ours in E. destruct (Nat.leb_spec np (np + j)); [|lia]. unfold content in E. assert (Nk : (np + j =? K) = false) by (apply Nat.eqb_neq; lia). rewrite Nk in E. destruct (n_pipes s (np + j)).
            * destruct (writer_left _ _ _ _ _ _ s _ _); [discriminate|]. injection E as <-. eexists; eexists; (split; [|split; [|reflexivity]]; reflexivity).
            * injection E as <-. exists (pop line_handler K s (np + j)). eexists. unfold pop. rewrite Nk. split; [|split; [|reflexivity]]; reflexivity. }
        destruct Bc as (s1 & p & B1 & B2 & ->). cbn. rewrite B1, B2, Lv. auto.
      - rewrite Hout in E by lia. unfold ours in E. destruct (Nat.leb_spec np (np + i)); [|lia]. destruct (negb _); [injection E as <-; cbn; rewrite Lv; auto|].
        destruct (_ <? cap); [|discriminate]. injection E as <-. cbn. unfold push. destruct (Nat.eqb_spec (np + i) K) as [Ei|Ne]; cbn; rewrite Lv.
        + split; [exact Wo|]. right. left. exists b. split; [|reflexivity]. rewrite Wo. assert (i = n) as -> by lia. unfold live. now rewrite Eq.
        + auto.
      - injection E as <-. cbn. rewrite (writer_spec line_handler li_open np fds sees shell x n Hlen Hout Hw H1 Hsw s _ n (le_n _)).
        assert (Lg : live (set_nth (n_procs s) i None) n = if Nat.eqb n i then false else live (n_procs s) n).
        { unfold live. rewrite nth_set_nth by exact Lt. now destruct (Nat.eqb n i). }
        rewrite Lg, Wo. destruct (Nat.eqb_spec n i) as [->|Ne].
        + rewrite andb_false_r. split; [reflexivity|]. right. right. split; [|reflexivity]. unfold live. now rewrite Eq.
        + rewrite andb_diag. split; [reflexivity|]. left. rewrite <- Wo. now destruct (n_rd s). }
    destruct Same as [S1 [X|[(b & Wt & X)|[Wt X] ] ] ]; (split; [|exact S1]); rewrite X; [exact LI| |].
    - apply (LInv_step true (n_rd s) (LFeed [b])); [exact LI|]. exact (rstep_feed line_handler line_wants line_event line_next line_next li_open _ b Wt).
    - apply (LInv_step true (n_rd s) LClose); [exact LI|]. exact (rstep_close line_handler line_wants line_event line_next line_next li_open _ Wt).
  Qed.
  Lemma wgood_step s l s' : wgood s -> nstepL s l = Some s' -> wgood s'.
  Proof.
    intros (LI & Ln & Wo & D) E. assert (E0 := E). unfold nstep in E. destruct (negb (may line_handler s l)); [discriminate|].
    assert (Rd : forall rl r, reader_only rl -> rstepL (n_rd s) rl = Some r -> wgood (mkN (n_procs s) (n_pipes s) (n_in s) r (n_ok s))).
    { intros rl r Ro Er. destruct (rstep_keeps line_handler line_wants line_event line_next line_next li_open _ _ _ Ro Er) as [K1 K2].
      split; [exact (LInv_step true _ _ _ LI Er)|]. cbn. rewrite K1, K2. auto. }
    destruct l as [i|m| | |ok]; cbn [reader_label] in E.
    2-5: destruct (rstep _ _ _ _ _ _ _ _ _) as [r|] eqn:Er; [|discriminate]; injection E as <-; eapply Rd; [|exact Er]; exact Logic.I.
    assert (Hi : i <= n).
    { unfold proc_step in E. destruct (nth i (n_procs s) None) eqn:Eq; [|discriminate]. apply nth_some_lt in Eq. lia. }
    destruct (proc_reader s i s' LI Ln Wo Hi E) as [LI' Wo']. destruct (proc_step_frame s i s' E) as (Fl & Fo & Fn).
    split; [exact LI'|]. split; [congruence|]. split; [exact Wo'|].
    destruct (proc_rd np cap fds sees shell x n Hlen Hin0 HinS Hout s i s' Hi E) as (d & w0 & Rr & Dd). rewrite Rr. cbn [r_sent].
    destruct D as [(q & w & Eq & Wf & Ew)|(y & Y)]; [|right; exists (y ++ d); now rewrite Y, app_assoc].
    destruct (Nat.eq_dec i n) as [->|Ne].
    - destruct Dd as [->|(_ & b & f & -> & _ & Eb & Ef)].
      + rewrite app_nil_r. destruct w as [|b w]; [right; exists []; rewrite app_nil_r in Ew |- *; exact Ew|].
        pose proof (proc_next line_handler li_open np cap fds sees shell x K s n q s' Eq E) as Nx.
        inversion Wf as [|b1 k1 w1 Wk|k1 w1 Wk]; subst.
        * exfalso. (* it would have written *) 
          unfold proc_step in E. rewrite Eq, (Hout n (le_n _)) in E. unfold ours in E. destruct (Nat.leb_spec np (np + n)); [|lia].
          rewrite (reader_spec line_handler li_open np fds sees shell x n Hlen HinS Hr H0 Hsr Hx s n (le_n _)), Nat.eqb_refl in E.
          assert (Op : li_open (r_h (n_rd s)) = true).
          { destruct (li_open (r_h (n_rd s))) eqn:Op; [reflexivity|]. pose proof (l_open_w _ LI Op) as X. rewrite Wo in X. unfold live in X. rewrite Eq in X. discriminate. }
          rewrite Op in E. cbn [negb] in E. destruct (_ <? cap); [|discriminate]. injection E as <-. cbn in Rr. unfold push in Rr. rewrite Nat.eqb_refl in Rr. cbn in Rr. apply (f_equal r_sent) in Rr. cbn in Rr.
          apply (f_equal (@List.length N)) in Rr. rewrite !app_length in Rr. cbn in Rr. lia.
        * destruct Nx as (o & No & _). left. exists (k1 o), (b :: w). auto.
      + rewrite Eq in Eb. injection Eb as ->. inversion Wf as [|b1 k1 w1 Wk|]; subst.
        * right. exists [b]. rewrite <- Ew, app_nil_r. reflexivity.
        * left. exists (f true), w1. rewrite <- app_assoc. auto.
    - assert (d = []) as -> by (destruct Dd as [->|(_ & b & f & _ & X & _)]; [reflexivity|congruence]). rewrite app_nil_r. left. exists q, w. rewrite Fo by congruence. auto.
  Qed.
  Lemma wgood_inv first rest s : W = first ++ rest -> wgood s -> LInv (n_rd s) /\ List.length (n_procs s) = S n /\ r_wopen (n_rd s) = live (n_procs s) n /\
      ((exists y, r_sent (n_rd s) ++ y = first ++ rest) \/ (exists y, r_sent (n_rd s) = first ++ rest ++ y)) /\
      (r_wopen (n_rd s) = false -> exists y, r_sent (n_rd s) = first ++ rest ++ y).
  Proof.
    intros EW (A & B & C & D). rewrite EW in D. split; [exact A|]. split; [exact B|]. split; [exact C|]. split.
    - destruct D as [(q & w & _ & _ & Y)|(y & Y)]; [left; exists w; exact Y|right; exists y; now rewrite Y, app_assoc].
    - intros F. destruct D as [(q & w & Eq & _)|(y & Y)]; [|exists y; now rewrite Y, app_assoc]. rewrite C in F. unfold live in F. rewrite Eq in F. discriminate.
  Qed.

  (** *** Output that fits into the pipe: the processes need no reader. *)
  Section Short.
    Variables (out : list N) (es : nat -> option bool) (okf : nat -> bool) (C T : Prop).
    Hypothesis Hes : es n <> None.
    Hypothesis HT : T -> forall i, i <= n -> es i <> None.
    Hypothesis Hokf : C -> forall i, es i = Some false -> okf i = false.
    Hypothesis HC : C.
    Hypothesis Hall : forall i, i <= n -> es i <> None.
    Hypothesis Hcap : 0 < cap.
    Hypothesis Hshort : List.length out <= cap.
    Notation invL := (inv line_handler np sees n LInv out es okf C T).
    Lemma pend_sent r : LInv r -> List.length (r_pend r) <= List.length (r_sent r).
    Proof.
      intros LI. destruct (l_data _ LI) as [D|[Ee _] ].
      - apply (f_equal (@List.length N)) in D. rewrite !app_length in D. lia.
      - destruct (l_eof _ LI Ee) as [-> _]. cbn. lia.
    Qed.
    Lemma can_step i : forall s ws cs q, invL s ws cs -> i <= n -> nth i (n_procs s) None = Some q ->
      (i < n -> nth (S i) (n_procs s) None = None \/ n_pipes s (np + i) = []) -> exists j s', proc_stepL s j = Some s'.
    Proof.
      induction i as [|j IH]; intros s ws cs q I Hi Eq Em; destruct q as [f|b f|ok].
      - exists 0. unfold proc_step. rewrite Eq. destruct (see 0 0) as [[?|k'|?|? ?|?]|] eqn:E0; try (destruct (n_in s); eauto; fail); eauto.
        assert (Ek : k' < np) by now apply Hin0. unfold ours. destruct (Nat.leb_spec np k'); [lia|]. destruct (n_in s); eauto.
      - exists 0. unfold proc_step. rewrite Eq, Hout by lia. unfold ours. destruct (Nat.leb_spec np (np + 0)); [|lia].
        rewrite (reader_spec line_handler li_open np fds sees shell x n Hlen HinS Hr H0 Hsr Hx s 0 Hi). unfold content. destruct (Nat.eqb_spec 0 n) as [En|Ne].
        + destruct (li_open (r_h (n_rd s))); cbn [negb]; [|eauto]. destruct (Nat.eqb_spec (np + 0) K); [|lia].
          destruct (Nat.ltb_spec (List.length (r_pend (n_rd s))) cap); [eauto|]. exfalso. destruct (i_live _ _ _ _ _ _ _ _ _ _ _ _ _ I 0 _ Eq) as [G|[X _] ]; [|lia].
          apply givesn_writes in G. pose proof (pend_sent _ (i_rd _ _ _ _ _ _ _ _ _ _ _ _ _ I)) as Ps. pose proof (i_sent _ _ _ _ _ _ _ _ _ _ _ _ _ I) as Is. apply (f_equal (@List.length N)) in Is. rewrite app_length in Is.
          destruct (ws n) as [|b0 w0] eqn:Ew; [|cbn in Is; lia]. rewrite <- En in Ew. rewrite Ew in G. destruct G as [ [_ X]|(? & ? & _ & _ & X & _)]; [|discriminate]. rewrite En in X. congruence.
        + unfold live. destruct (nth 1 (n_procs s) None) eqn:E1; cbn [negb]; [|eauto]. destruct (Nat.eqb_spec (np + 0) K); [lia|]. destruct (Em ltac:(lia)) as [X|X]; [congruence|]. rewrite X. cbn [List.length]. destruct (Nat.ltb_spec 0 cap); [eauto|lia].
      - exists 0. unfold proc_step. rewrite Eq. eauto.
      - unfold proc_step. destruct (n_pipes s (np + j)) as [|b0 w0] eqn:Ep.
        + destruct (nth j (n_procs s) None) as [q'|] eqn:Ej.
          * apply (IH s ws cs q' I ltac:(lia) Ej). intros _. now right.
          * exists (S j). rewrite Eq, (HinS j) by lia. unfold ours. destruct (Nat.leb_spec np (np + j)); [|lia]. unfold content. destruct (Nat.eqb_spec (np + j) K); [lia|]. rewrite Ep.
            rewrite (writer_spec line_handler li_open np fds sees shell x n Hlen Hout Hw H1 Hsw s _ j ltac:(lia)). unfold live. rewrite Ej. eauto.
        + exists (S j). rewrite Eq, (HinS j) by lia. unfold ours. destruct (Nat.leb_spec np (np + j)); [|lia]. unfold content. destruct (Nat.eqb_spec (np + j) K); [lia|]. rewrite Ep. eauto.
      - exists (S j). unfold proc_step. rewrite Eq, Hout by lia. unfold ours. destruct (Nat.leb_spec np (np + S j)); [|lia].
        rewrite (reader_spec line_handler li_open np fds sees shell x n Hlen HinS Hr H0 Hsr Hx s (S j) Hi). unfold content. destruct (Nat.eqb_spec (S j) n) as [En|Ne].
        + destruct (li_open (r_h (n_rd s))); cbn [negb]; [|eauto]. destruct (Nat.eqb_spec (np + S j) K); [|lia].
          destruct (Nat.ltb_spec (List.length (r_pend (n_rd s))) cap); [eauto|]. exfalso. destruct (i_live _ _ _ _ _ _ _ _ _ _ _ _ _ I (S j) _ Eq) as [G|[X _] ]; [|lia].
          apply givesn_writes in G. pose proof (pend_sent _ (i_rd _ _ _ _ _ _ _ _ _ _ _ _ _ I)) as Ps. pose proof (i_sent _ _ _ _ _ _ _ _ _ _ _ _ _ I) as Is. apply (f_equal (@List.length N)) in Is. rewrite app_length in Is.
          destruct (ws n) as [|b0 w0] eqn:Ew; [|cbn in Is; lia]. rewrite <- En in Ew. rewrite Ew in G. destruct G as [ [_ X]|(? & ? & _ & _ & X & _)]; [|discriminate]. rewrite En in X. congruence.
        + unfold live. destruct (nth (S (S j)) (n_procs s) None) eqn:E1; cbn [negb]; [|eauto]. destruct (Nat.eqb_spec (np + S j) K); [lia|]. destruct (Em ltac:(lia)) as [X|X]; [congruence|]. rewrite X. cbn [List.length]. destruct (Nat.ltb_spec 0 cap); [eauto|lia].
      - exists (S j). unfold proc_step. rewrite Eq. eauto.
    Qed.
    Lemma last_live (s : netL) m : (forall i, m <= i -> nth i (n_procs s) None = None) -> (forall i, nth i (n_procs s) None = None) \/
      exists i q, i < m /\ nth i (n_procs s) None = Some q /\ nth (S i) (n_procs s) None = None.
    Proof.
      induction m as [|m IH]; intros D; [left; intros i; apply D; lia|]. destruct (nth m (n_procs s) None) as [q|] eqn:E.
      - right. exists m, q. split; [lia|]. split; [exact E|]. apply D. lia.
      - destruct IH as [X|(i & q & A & B)]; [|now left|right; exists i, q; split; [lia|exact B]]. intros i Hi. destruct (Nat.eq_dec i m) as [->|]; [exact E|apply D; lia].
    Qed.
    Lemma all_exit k : forall s ws cs, invL s ws cs -> total cs n <= k ->
      exists is s', nstepsL s (map NProc is) = Some s' /\ forall i, nth i (n_procs s') None = None.
    Proof.
      induction k as [|k IH]; intros s ws cs I Tk; pose proof (i_len _ _ _ _ _ _ _ _ _ _ _ _ _ I) as Ln;
        (destruct (last_live s (S n) ltac:(intros i Hi; apply nth_overflow; lia)) as [D|(i & q & Hi & Eq & Dn)]; [exists [], s; now split|]);
        destruct (can_step i s ws cs q I ltac:(lia) Eq (fun _ => or_introl Dn)) as (j & s1 & E1);
        destruct (inv_nstep line_handler line_wants line_event line_next line_next li_open np cap fds sees shell x n Hlen Hin0 HinS Hout Hw Hr H0 H1 Hsw Hsr Hx LInv
          (fun r l r' I0 X => LInv_step true r l r' I0 X) l_open_w out es okf C T Hes HT Hokf s ws cs (NProc j) s1 I E1) as (ws1 & cs1 & I1 & T1 & _);
        specialize (T1 (conj HC Hall)); cbn [proc_label] in T1; [lia|].
      destruct (IH s1 ws1 cs1 I1 ltac:(lia)) as (is & s2 & E2 & D). exists (j :: is), s2. split; [|exact D]. cbn [map nsteps].
      change (match proc_stepL s j with Some s' => nstepsL s' (map NProc is) | None => None end = Some s2). now rewrite E1.
    Qed.
  End Short.
End First.
