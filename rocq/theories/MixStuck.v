(** A program that has more to write than its reader, a python function, will ever
    read: pipelines that never end. *)
From Verif Require Import Py RedirModel Os PerformModel PerformSpec RunModel RunSpec RunTopSpec IterModel IterSpec IterProofs NetModel NetSpec NetProofs SrcModel MixModel MixSpec MixProofs MixTop.

Section Stuck.
  Variable H : Type.
  Variable h_wants : H -> bool.
  Variable h_event : H -> bytes -> H * bool.
  Variable h_next h_resume : H -> H * outcome.
  Variable h_open : H -> bool.
  Variables np cap pipe_buf : nat.
  Variable fds : list nat.
  Variable sees : list (nat -> option ofd).
  Variable shell : tab.
  Variables x n : nat.
  Notation K := (np + n).
  Notation see i := (nth i sees (fun _ => None)).
  Notation item s i := (nth i (m_items s) (SProc None)).
  Notation mstepH := (mstep H h_wants h_event h_next h_resume h_open np cap pipe_buf fds sees shell x K).
  Notation mstepsH := (msteps H h_wants h_event h_next h_resume h_open np cap pipe_buf fds sees shell x K).
  Notation closesH := (item_closes H h_open fds sees shell x K).
  Notation mpushH := (mpush H K).
  Notation mpopH := (mpop H K).
  Hypothesis Hlen : List.length sees = S n.
  Hypothesis Hin0 : forall k, see 0 0 = Some (OPipeR k) -> k < np.
  Hypothesis HinS : forall j, j < n -> see (S j) 0 = Some (OPipeR (np + j)).
  Hypothesis Hout : forall i, i <= n -> see i 1 = Some (OPipeW (np + i)).
  Hypothesis Hw : forall i m k, i <= n -> In m fds -> np <= k -> see i m = Some (OPipeW k) -> k = np + i.
  Hypothesis Hr : forall i m k, i <= n -> In m fds -> np <= k -> see i m = Some (OPipeR k) -> exists j, i = S j /\ k = np + j.
  Hypothesis H0 : In 0 fds.
  Hypothesis H1 : In 1 fds.
  Hypothesis Hsw : forall m k, refers shell m = Some (OPipeW k) -> k < np.
  Hypothesis Hsr : forall m k, refers shell m = Some (OPipeR k) -> np <= k -> m = x.
  Hypothesis Hx : refers shell x = Some (OPipeR K).
  (** Items j and S j; what the program still does, what is in the pipe, what is in
      the buffer of the function's input, what the function still does. *)
  Variable j : nat.
  Hypothesis Hj : j < n.
  Variable Q : prog -> list N -> list N -> fn -> Prop.
  Hypothesis Qexit : forall ok c b f, ~ Q (Exits ok) c b f.
  Hypothesis Qwrite : forall y k c b f, Q (Writes y k) c b f -> List.length c < cap -> Q (k true) (c ++ [y]) b f.
  Hypothesis Qread : forall k o c b f, Q (Reads k) c b f -> Q (k o) c b f.
  Hypothesis Qfeed : forall p c b f d, Q p c b f -> has_nl b = false -> d <= 1024 -> d <= List.length c -> Q p (skipn d c) (b ++ firstn d c) f.
  Hypothesis Qask : forall p c b k, Q p c b (FAsk k) -> has_nl b = true -> Q p c (snd (split1 b)) (k (Some (fst (split1 b)))).
  Hypothesis Qgive : forall p c b v k, Q p c b (FGive v k) -> Q p c b k.
  Definition pair (a b : istate) (c : list N) : Prop :=
    exists p g, a = SProc (Some p) /\ b = SFun g /\ li_open (g_in g) = true /\ li_eof (g_in g) = false /\ Q p c (li_buf (g_in g)) (g_code g).
  Definition keep (s : mix H) : Prop :=
    List.length (m_items s) = S n /\ pair (item s j) (item s (S j)) (m_pipes s (np + j)) /\ m_told s j = false /\ ~ ended (r_out (m_rd s)).
  Lemma kept (s s' : mix H) : keep s -> List.length (m_items s') = List.length (m_items s) -> pair (item s' j) (item s' (S j)) (m_pipes s' (np + j)) ->
    m_told s' j = m_told s j -> (r_out (m_rd s') = r_out (m_rd s)) -> keep s'.
  Proof. intros (A & B & C & D) L P T O. split; [now rewrite L|]. split; [exact P|]. split; [now rewrite T|]. now rewrite O. Qed.
  (** Another item changes. *)
  Lemma kept_other (s s' : mix H) i st : keep s -> i <> j -> i <> S j -> m_items s' = set_nth (m_items s) i st -> i < List.length (m_items s) ->
    m_pipes s' (np + j) = m_pipes s (np + j) -> m_told s' j = m_told s j -> r_out (m_rd s') = r_out (m_rd s) -> keep s'.
  Proof.
    intros I N1 N2 E Li P T O. apply (kept s); auto.
    - rewrite E. apply set_nth_length.
    - rewrite E, !(nth_set_nth _ (SProc None)) by exact Li. destruct (Nat.eqb_spec j i); [congruence|]. destruct (Nat.eqb_spec (S j) i); [congruence|]. rewrite P. apply I.
  Qed.
  Lemma push_pipes (s : mix H) k b : k <> np + j -> m_items (mpushH s k b) = m_items s /\ m_pipes (mpushH s k b) (np + j) = m_pipes s (np + j) /\ m_told (mpushH s k b) = m_told s /\ r_out (m_rd (mpushH s k b)) = r_out (m_rd s).
  Proof. intros Ne. unfold mpush. destruct (k =? K); cbn; auto. destruct (Nat.eqb_spec (np + j) k); [congruence|]. auto. Qed.
  Lemma pop_pipes (s : mix H) k d : k <> np + j -> m_items (mpopH s k d) = m_items s /\ m_pipes (mpopH s k d) (np + j) = m_pipes s (np + j) /\ m_told (mpopH s k d) = m_told s /\ r_out (m_rd (mpopH s k d)) = r_out (m_rd s).
  Proof. intros Ne. unfold mpop. destruct (k =? K); cbn; auto. destruct (Nat.eqb_spec (np + j) k); [congruence|]. auto. Qed.
  Lemma some_lt (s : mix H) i st : item s i = st -> st <> SProc None -> i < List.length (m_items s).
  Proof. intros E Ne. destruct (Nat.lt_ge_cases i (List.length (m_items s))) as [X|X]; [exact X|]. rewrite nth_overflow in E by exact X. congruence. Qed.
  Lemma Ours i : ours np (np + i) = true.
  Proof. apply Nat.leb_le. lia. Qed.
  Lemma keep_proc (s s' : mix H) i p : keep s -> item s i = SProc (Some p) -> proc_goes H h_open np cap fds sees shell x K s i p = Some s' -> keep s'.
  Proof.
    intros I Ei. pose proof (some_lt s i _ Ei ltac:(discriminate)) as Li. pose proof I as (Ln & (q & g & Eq & Eg & Op & Ef & HQ) & Tj & En). rewrite Ln in Li.
    assert (NS : i <> S j) by (intros ->; congruence).
    assert (CK : mcontent H K s (np + j) = m_pipes s (np + j)) by (unfold mcontent; destruct (Nat.eqb_spec (np + j) K); [lia|reflexivity]).
    destruct (Nat.eq_dec i j) as [->|Ne].
    - assert (q = p) as -> by congruence. clear Eq.
      assert (St : forall s1 p', m_items s1 = m_items s -> m_told s1 = m_told s -> r_out (m_rd s1) = r_out (m_rd s) ->
                Q p' (m_pipes s1 (np + j)) (li_buf (g_in g)) (g_code g) -> keep (item_is H s1 j (SProc (Some p')))).
      { intros s1 p' A1 A2 A3 A4. apply (kept s); cbn; [exact I|rewrite A1; apply set_nth_length| |now rewrite A2|exact A3].
        rewrite A1, !(nth_set_nth _ (SProc None)) by lia. rewrite Nat.eqb_refl. destruct (Nat.eqb_spec (S j) j); [lia|]. exists p', g. auto. }
      destruct p as [f|b f|ok]; cbn [proc_goes].
      + intros E. assert (X : exists s1 o, s' = item_is H s1 j (SProc (Some (f o))) /\ m_items s1 = m_items s /\ m_told s1 = m_told s /\ r_out (m_rd s1) = r_out (m_rd s) /\ m_pipes s1 (np + j) = m_pipes s (np + j)).
        { destruct (see j 0) as [o|] eqn:Eo; [|injection E as <-; exists s, None; auto].
          destruct (match o with OPipeR k => if ours np k then Some k else None | _ => None end) as [k|] eqn:Ek.
          - destruct o; try discriminate. destruct (ours np k0); [|discriminate]. injection Ek as ->.
            assert (Nk : k <> np + j). { destruct j as [|j']; [apply Hin0 in Eo; lia|]. rewrite HinS in Eo by lia. injection Eo as <-. lia. }
            destruct (mcontent H K s k) as [|b r]; [destruct (w_left _ _ _ _ _ _ _ _ _); [discriminate|]; injection E as <-; exists s, None; auto|].
            injection E as <-. destruct (pop_pipes s k 1 Nk) as (A1 & A2 & A3 & A4). exists (mpopH s k 1), (Some b). auto.
          - destruct (m_in s) as [|b r]; injection E as <-; [exists s, None; auto|]. exists (takes H s r), (Some b). auto. }
        destruct X as (s1 & o & -> & A1 & A2 & A3 & A4). apply St; auto. rewrite A4. now apply Qread.
      + rewrite Hout by lia. rewrite Ours, (r_left_spec H h_open np fds sees shell x n Hlen Hin0 HinS Hr H0 Hsr Hx) by lia.
        destruct (Nat.eqb_spec j n); [lia|]. rewrite Eg. cbn [rl]. rewrite Op. cbn [negb]. rewrite CK. destruct (Nat.ltb_spec (List.length (m_pipes s (np + j))) cap) as [Hc|]; [|discriminate].
        intros E. injection E as <-. unfold mpush. destruct (Nat.eqb_spec (np + j) K); [lia|]. apply St; auto. cbn. rewrite Nat.eqb_refl. now apply Qwrite.
      + now apply Qexit in HQ.
    - assert (St : forall s1 st, m_items s1 = m_items s -> m_told s1 = m_told s -> r_out (m_rd s1) = r_out (m_rd s) -> m_pipes s1 (np + j) = m_pipes s (np + j) -> keep (item_is H s1 i st)).
      { intros s1 st A1 A2 A3 A4. apply (kept_other s _ i st); cbn; auto; [now rewrite A1|lia|now rewrite A2]. }
      destruct p as [f|b f|ok]; cbn [proc_goes].
      + intros E. destruct (see i 0) as [o|] eqn:Eo; [|injection E as <-; now apply St].
        destruct (match o with OPipeR k => if ours np k then Some k else None | _ => None end) as [k|] eqn:Ek.
        * destruct o; try discriminate. destruct (ours np k0); [|discriminate]. injection Ek as ->.
          assert (Nk : k <> np + j). { destruct i as [|i']; [apply Hin0 in Eo; lia|]. rewrite HinS in Eo by lia. injection Eo as <-. lia. }
          destruct (mcontent H K s k) as [|b r]; [destruct (w_left _ _ _ _ _ _ _ _ _); [discriminate|]; injection E as <-; now apply St|].
          injection E as <-. destruct (pop_pipes s k 1 Nk) as (A1 & A2 & A3 & A4). now apply St.
        * destruct (m_in s) as [|b r]; injection E as <-; now apply St.
      + rewrite Hout by lia. rewrite Ours. destruct (negb _); [intros E; injection E as <-; now apply St|]. destruct (_ <? cap); [|discriminate].
        intros E. injection E as <-. destruct (push_pipes s (np + i) b ltac:(lia)) as (A1 & A2 & A3 & A4). now apply St.
      + intros E. injection E as <-. apply (kept_other s _ i (SProc None)); cbn; auto. lia.
  Qed.
  (** Function i changes; its input and code as given. *)
  Lemma keep_fun (s s' : mix H) i g g' : keep s -> item s i = SFun g -> m_items s' = set_nth (m_items s) i (SFun g') ->
    m_pipes s' (np + j) = m_pipes s (np + j) -> m_told s' = m_told s -> r_out (m_rd s') = r_out (m_rd s) ->
    (i = S j -> li_open (g_in g) = true -> li_eof (g_in g) = false -> (forall p c, Q p c (li_buf (g_in g)) (g_code g) -> Q p c (li_buf (g_in g')) (g_code g')) /\ li_open (g_in g') = true /\ li_eof (g_in g') = false) -> keep s'.
  Proof.
    intros I Ei Em Ep Et Eo Hg. pose proof (some_lt s i _ Ei ltac:(discriminate)) as Li. pose proof I as (Ln & (q & g0 & Eq & Eg & Op & Ef & HQ) & Tj & En).
    assert (i <> j) by (intros ->; congruence). destruct (Nat.eq_dec i (S j)) as [->|Ne].
    - assert (g0 = g) as -> by congruence. destruct (Hg eq_refl Op Ef) as (A & B & C). apply (kept s); auto; [rewrite Em; apply set_nth_length| |now rewrite Et].
      rewrite Em, !(nth_set_nth _ (SProc None)) by lia. destruct (Nat.eqb_spec j (S j)); [lia|]. rewrite Nat.eqb_refl, Ep. exists q, g'. auto 6.
    - apply (kept_other s s' i (SFun g')); auto. now rewrite Et.
  Qed.
  Lemma keep_step (s s' : mix H) l : keep s -> mstepH s l = Some s' -> keep s'.
  Proof.
    intros I. unfold mstep. destruct l as [i|i d|i|i|i|i|i| |i| |l].
    1: { destruct (item s i) as [[p|]|g] eqn:Ei; try discriminate. now apply keep_proc. }
    all: destruct (m_wr s) as [[[i0 k0] rest]|] eqn:Ew; try discriminate.
    all: try (destruct (item s i0) as [p0|g0] eqn:Ei0; [discriminate|]; try discriminate).
    all: unfold loop_step; try discriminate.
    - (* reads *)
      destruct (item s i) as [p|g] eqn:Ei; [discriminate|]. unfold fun_reads. destruct (see i 0) as [[?|k|?|? ?|?]|] eqn:Es; try discriminate.
      destruct (_ && _ && _) eqn:G; [|discriminate]. apply andb_prop in G as [G G3]. apply andb_prop in G as [G1 G2].
      unfold line_event. rewrite G2. intros E. injection E as <-.
      pose proof (some_lt s i _ Ei ltac:(discriminate)) as Li. pose proof I as (Ln & (q & g0 & Eq & Eg & Op & Ef & HQ) & Tj & En).
      destruct (Nat.eq_dec i (S j)) as [->|Ne].
      + assert (g0 = g) as -> by congruence. rewrite HinS in Es by exact Hj. injection Es as <-.
        assert (CK : mcontent H K s (np + j) = m_pipes s (np + j)) by (unfold mcontent; destruct (Nat.eqb_spec (np + j) K); [lia|reflexivity]).
        rewrite CK in *. rewrite (w_left_spec H h_open np fds sees shell x n Hlen Hout Hw H1 Hsw) in G3 by lia. rewrite Eq in G3. cbn [wl negb andb] in G3.
        destruct (m_pipes s (np + j)) as [|b0 r0] eqn:Ec; [discriminate|]. apply andb_prop in G3 as [G3 G5]. apply andb_prop in G3 as [G3 G4]. apply Nat.leb_le in G3, G4, G5.
        unfold mpop. destruct (Nat.eqb_spec (np + j) K); [lia|].
        apply (kept s); cbn [m_items m_pipes m_told m_rd item_closes]; auto; [apply set_nth_length|].
        rewrite !(nth_set_nth _ (SProc None)) by lia. destruct (Nat.eqb_spec j (S j)); [lia|]. rewrite !Nat.eqb_refl. rewrite Ec. eexists q, _. split; [exact Eq|]. split; [reflexivity|]. cbn [g_in g_code li_open li_eof li_buf].
        destruct d as [|d]; [lia|]. cbn [firstn]. rewrite Op, Ef. split; [reflexivity|]. split; [reflexivity|].
        unfold line_wants in G2. apply negb_true_iff in G2. change (b0 :: firstn d r0) with (firstn (S d) (b0 :: r0)). now apply Qfeed.
      + assert (Nk : k <> np + j). { destruct i as [|i']; [apply Hin0 in Es; lia|]. rewrite HinS in Es by lia. injection Es as <-. lia. }
        destruct (pop_pipes s k d Nk) as (A1 & A2 & A3 & A4).
        eapply (kept_other s _ i); cbn [m_items m_pipes m_told m_rd item_closes r_out]; auto; [intros ->; congruence|now rewrite A1|now rewrite A3].
    - destruct (item s i) as [p|g] eqn:Ei; [discriminate|]. destruct (see i 1) as [[?|?|k|? ?|?]|]; try discriminate. destruct (_ && _); [|discriminate]. intros E. injection E as <-.
      eapply (keep_fun s _ i g); [exact I|exact Ei|reflexivity|reflexivity|reflexivity|reflexivity|]. cbn. auto.
    - destruct (item s i) as [p|g] eqn:Ei; [discriminate|]. destruct (g_flag g); [|discriminate]. intros E. injection E as <-. eapply (keep_fun s _ i g); [exact I|exact Ei|reflexivity|reflexivity|reflexivity|reflexivity|]. cbn. auto.
    - destruct (item s i) as [p|g] eqn:Ei; [discriminate|]. destruct (g_tasks g); [discriminate|]. intros E. injection E as <-. eapply (keep_fun s _ i g); [exact I|exact Ei|reflexivity|reflexivity|reflexivity|reflexivity|]. cbn. auto.
    - destruct (item s i) as [p|g] eqn:Ei; [discriminate|]. unfold fun_runs. destruct (g_phase g); try discriminate. destruct (g_code g) as [k|v k|e] eqn:Ec.
      + destruct (line_next (g_in g)) as [h o] eqn:El. intros E. injection E as <-.
        eapply (keep_fun s _ i g); [exact I|exact Ei|reflexivity|reflexivity|reflexivity|reflexivity|]. intros _ Op Ef. unfold line_next in El. rewrite Ef in El. cbn [negb andb] in El.
        destruct (has_nl (li_buf (g_in g))) eqn:En; cbn [negb] in El.
        * destruct (li_buf (g_in g)) as [|b0 r0] eqn:Eb; [discriminate|]. rewrite <- Eb in *. pose proof (fun p c X => Qask p c (li_buf (g_in g)) k X En) as A. rewrite Ec.
          destruct (split1 (li_buf (g_in g))) as [l r]. injection El as <- <-. cbn in A |- *. rewrite Op. auto.
        * injection El as <- <-. cbn. rewrite Ec. auto.
      + intros E. assert (X : keep (item_is H s i (SFun (mkFS k (g_in g) QIdle (g_tasks g) (g_flag g) (g_open g) (g_done g))))).
        { eapply (keep_fun s _ i g); [exact I|exact Ei|reflexivity|reflexivity|reflexivity|reflexivity|]. cbn. rewrite Ec. intros _ A B. split; [|auto]. intros p c X. now apply Qgive in X. }
        destruct v; [destruct (g_open g)|]; injection E as <-; exact X.
      + intros E. injection E as <-. unfold fun_ends. eapply (keep_fun s _ i g); [exact I|exact Ei|reflexivity|reflexivity|reflexivity|reflexivity|]. cbn. auto.
    - destruct (item s i) as [p|g] eqn:Ei; [discriminate|]. destruct (g_phase g); try discriminate. intros E. injection E as <-. eapply (keep_fun s _ i g); [exact I|exact Ei|reflexivity|reflexivity|reflexivity|reflexivity|]. cbn. auto.
    - (* os.write *)
      pose proof (some_lt s i0 _ Ei0 ltac:(discriminate)) as Li. pose proof I as (Ln & (q & g & Eq & _) & _).
      unfold fun_pushes. rewrite Hout by lia. destruct rest as [|b r]; [intros E; injection E as <-; exact I|].
      destruct (negb _).
      + intros E. injection E as <-. destruct k0; [|exact I]. unfold fun_ends.
        eapply (keep_fun s _ i0 g0); [exact I|exact Ei0|reflexivity|reflexivity|reflexivity|reflexivity|]. cbn. auto.
      + destruct (_ <? cap); [|discriminate]. intros E. injection E as <-. assert (Ne : np + i0 <> np + j) by (intros X; assert (i0 = j) as -> by lia; congruence).
        destruct (push_pipes s (np + i0) b Ne) as (A1 & A2 & A3 & A4). apply (kept s); cbn; auto; rewrite ?A1, ?A2, ?A3; auto. apply I.
    - (* told *)
      destruct (_ && _ && _) eqn:G; [|discriminate]. intros E. injection E as <-. apply andb_prop in G as [_ G]. pose proof I as (Ln & (q & g & Eq & _) & _).
      apply (kept s); cbn; auto; [apply I|]. destruct (Nat.eqb_spec j i) as [<-|]; [|reflexivity]. rewrite Eq in G. discriminate.
    - destruct (_ && _ && _); [|discriminate]. intros E. injection E as <-. apply (kept s); cbn; auto. apply I.
    - pose proof I as (Ln & (q & g & Eq & _) & Tj & En).
      assert (Run : mrunning H s = true) by (unfold mrunning; apply existsb_exists; exists j; split; [apply in_seq; lia|]; rewrite Eq, Tj; reflexivity).
      destruct (match l with LFeed _ | LClose => false | LAtEof ok => _ | _ => true end) eqn:G; [|discriminate].
      destruct (rstep _ _ _ _ _ _ _ _ _) as [r'|] eqn:Er; [|discriminate]. intros E. injection E as <-.
      split; [exact Ln|]. split; [apply I|]. split; [exact Tj|]. cbn [with_rd m_rd].
      pose proof (after_eof H h_wants h_event h_next h_resume h_open _ _ _ Er) as A.
      destruct l as [?| |?| | |ok]; try discriminate G.
      + intros [X|X]; apply En; [left|right]; apply A; auto.
      + intros [X|X]; apply En; [left|right]; apply A; auto.
      + intros [X|X]; apply En; [left|right]; apply A; auto.
      + rewrite Run in G. cbn in G. rewrite andb_false_r in G. discriminate.
  Qed.
  Lemma keep_steps ls : forall (s s' : mix H), keep s -> mstepsH s ls = Some s' -> keep s'.
  Proof.
    induction ls as [|l ls IH]; intros s s' I; cbn [msteps]; [intros E; injection E as <-; exact I|].
    destruct (mstepH s l) as [s1|] eqn:E; [|discriminate]. intros Es. eapply IH; [|exact Es]. eapply keep_step; eauto.
  Qed.
  Lemma keep_start h codes inp p f : List.length codes = S n -> nth j codes (CProg (Exits true)) = CProg p -> nth (S j) codes (CProg (Exits true)) = CFun f -> Q p [] [] f ->
    keep (mix_start H sees h codes inp).
  Proof.
    intros Lc Ep Ef HQ. split; [|split; [|split; [reflexivity|intros [[]|[]]]]].
    - unfold mix_start. cbn. rewrite map_length, combine_length, Lc, Hlen. apply Nat.min_id.
    - rewrite !(start_item H sees n Hlen h codes inp) by (exact Lc || lia). rewrite Ep, Ef. cbn [item_start]. rewrite (HinS j Hj). eexists _, _. split; [reflexivity|]. split; [reflexivity|]. cbn. auto.
  Qed.
End Stuck.

(** ** Two such programs *)
Lemma endless_exit ok : ~ endless (Exits ok).
Proof. intros E. inversion E. Qed.
Definition lines_in (l : list N) : nat := count_occ N.eq_dec l nl.
Lemma lines_in_app a b : lines_in (a ++ b) = lines_in a + lines_in b.
Proof. apply count_occ_app. Qed.
Section Finite.
  Variable cap : nat.
  Variables first r : list N.
  Variable q0 : nat.
  Hypothesis Hf : q0 < lines_in first.
  Hypothesis Hr : cap + 1023 < List.length r.
  (** [tk]: what the function has taken. *)
  Definition too_much (p : prog) (c b : list N) (f : fn) : Prop :=
    exists tk rem q, writes_first p rem /\ tk ++ b ++ c ++ rem = first ++ r /\ List.length c <= cap /\
      asks_at_most q f /\ q + lines_in tk <= q0 /\ List.length (tk ++ b) <= List.length first + 1023.
  Lemma tm_exit ok c b f : ~ too_much (Exits ok) c b f.
  Proof.
    intros (tk & rem & q & W & E & C & _ & _ & B). inversion W; subst. rewrite app_nil_r in E. apply (f_equal (@List.length N)) in E. rewrite !app_length in *. lia.
  Qed.
  Lemma tm_write y k c b f : too_much (Writes y k) c b f -> List.length c < cap -> too_much (k true) (c ++ [y]) b f.
  Proof.
    intros (tk & rem & q & W & E & C & A & L & B) Hc. inversion W as [p|y' k' w W'|]; subst.
    - exfalso. rewrite app_nil_r in E. apply (f_equal (@List.length N)) in E. rewrite !app_length in *. lia.
    - exists tk, w, q. split; [exact W'|]. split; [rewrite <- E, <- !app_assoc; reflexivity|]. split; [rewrite app_length; cbn; lia|]. auto.
  Qed.
  Lemma tm_read k o c b f : too_much (Reads k) c b f -> too_much (k o) c b f.
  Proof.
    intros (tk & rem & q & W & E & C & A & L & B). exists tk, rem, q. split; [|auto]. inversion W; subst; [constructor|auto].
  Qed.
  Lemma tm_feed p c b f d : too_much p c b f -> has_nl b = false -> d <= 1024 -> d <= List.length c -> too_much p (skipn d c) (b ++ firstn d c) f.
  Proof.
    intros (tk & rem & q & W & E & C & A & L & B) Nb D1 D2. exists tk, rem, q. split; [exact W|]. split; [|split; [rewrite skipn_length; lia|split; [exact A|split; [exact L|] ] ] ].
    - rewrite <- E, <- !app_assoc. rewrite (app_assoc (firstn d c)), firstn_skipn. reflexivity.
    - assert (X : List.length (tk ++ b) < List.length first).
      { destruct (Nat.lt_ge_cases (List.length (tk ++ b)) (List.length first)) as [X|X]; [exact X|exfalso].
        assert (P : exists z, tk ++ b = first ++ z).
        { rewrite app_assoc in E. clear - E X. revert E X. generalize (tk ++ b) as u. induction first as [|a l IH]; intros u E X; [exists u; reflexivity|]. destruct u as [|a' u]; [cbn in X; lia|].
          cbn in E. injection E as -> E. destruct (IH u E) as [z ->]; [cbn in X; lia|]. exists z. reflexivity. }
        destruct P as [z P]. apply (f_equal lines_in) in P. rewrite !lines_in_app in P. assert (Z : lines_in b = 0). { apply count_occ_not_In. now apply has_nl_not. } lia. }
      rewrite !app_length in *. rewrite firstn_length. lia.
  Qed.
  Lemma tm_ask p c b k : too_much p c b (FAsk k) -> has_nl b = true -> too_much p c (snd (split1 b)) (k (Some (fst (split1 b)))).
  Proof.
    intros (tk & rem & q & W & E & C & A & L & B) Hb. apply has_nl_In in Hb. pose proof (split1_spec b Hb) as S1. destruct (split1 b) as [l r']. destruct S1 as [-> Nl]. cbn [fst snd].
    inversion A as [| |q' k' A']; subst. exists (tk ++ l ++ [nl]), rem, q'. split; [exact W|]. split; [|split; [exact C|split; [apply A'|split] ] ].
    - rewrite <- E, <- !app_assoc. reflexivity.
    - rewrite !lines_in_app. assert (Z : lines_in l = 0) by now apply count_occ_not_In. rewrite Z. change (lines_in [nl]) with 1. lia.
    - rewrite !app_length in *. cbn in *. lia.
  Qed.
  Lemma tm_give p c b v k : too_much p c b (FGive v k) -> too_much p c b k.
  Proof. intros (tk & rem & q & W & E & C & A & L & B). exists tk, rem, q. inversion A; subst. auto 8. Qed.
End Finite.

Section Top.
  Variable L : limits.
  Variable pf : ofd -> bool.
  Variables logfd maxfd : nat.
  Variable c : stage.
  Variable cs : list stage.
  Variables s s' : st.
  Variable its : list item.
  Variable x : nat.
  Hypothesis HL : mixed L pf logfd maxfd c cs s s' its x.
  Variable codes : list code.
  Hypothesis Hcodes : Forall2 runs_as (c :: cs) codes.
  Variables cap pipe_buf : nat.
  Variable j : nat.
  Variable p : prog.
  Variable f : fn.
  Hypothesis Hp : nth_error codes j = Some (CProg p).
  Hypothesis Hf : nth_error codes (S j) = Some (CFun f).
  Variable Q : prog -> list N -> list N -> fn -> Prop.
  Hypothesis Qexit : forall ok c b f, ~ Q (Exits ok) c b f.
  Hypothesis Qwrite : forall y k c b f, Q (Writes y k) c b f -> List.length c < cap -> Q (k true) (c ++ [y]) b f.
  Hypothesis Qread : forall k o c b f, Q (Reads k) c b f -> Q (k o) c b f.
  Hypothesis Qfeed : forall p c b f d, Q p c b f -> has_nl b = false -> d <= 1024 -> d <= List.length c -> Q p (skipn d c) (b ++ firstn d c) f.
  Hypothesis Qask : forall p c b k, Q p c b (FAsk k) -> has_nl b = true -> Q p c (snd (split1 b)) (k (Some (fst (split1 b)))).
  Hypothesis Qgive : forall p c b v k, Q p c b (FGive v k) -> Q p c b k.
  Hypothesis Q0 : Q p [] [] f.
  Lemma never_ends (H : Type) h_wants h_event h_next h_resume (h_open : H -> bool) h inp ls t :
    msteps H h_wants h_event h_next h_resume h_open (s_np s) cap pipe_buf (proc_fds logfd maxfd) (map (item_has L logfd maxfd (s_tab s')) its)
      (without (s_tab s') (function_fds its)) x (caller_pipe (s_tab s') x) (mix_begin L logfd maxfd s' its h codes inp) ls = Some t ->
    ~ ended (r_out (m_rd t)) /\ exists q, nth j (m_items t) (SProc None) = SProc (Some q).
  Proof.
    apply (mixed_hyps L pf logfd maxfd c cs s s' its x HL codes Hcodes). intros X1 Lc X2 X3 X3' X4 X5 X6 X7 X8 X9 X10 X11 X12 EK. rewrite EK. intros E.
    assert (Hj : j < List.length cs). { assert (S j < List.length codes) by (apply nth_error_Some; congruence). lia. }
    assert (I0 : keep H (s_np s) (List.length cs) j Q (mix_begin L logfd maxfd s' its h codes inp)).
    { eapply (keep_start H (s_np s) (map (item_has L logfd maxfd (s_tab s')) its) (List.length cs) X1 X4 j Hj Q h codes inp p f Lc); [apply nth_error_nth; exact Hp|apply nth_error_nth; exact Hf|exact Q0]. }
    pose proof (keep_steps H h_wants h_event h_next h_resume h_open (s_np s) cap pipe_buf (proc_fds logfd maxfd) _ (without (s_tab s') (function_fds its)) x (List.length cs)
      X1 X2 X4 X5 X6 X7 X8 X9 X10 X11 X12 j Hj Q Qexit Qwrite Qread Qfeed Qask Qgive ls _ _ I0 E) as (_ & (q & g & A & _) & _ & B).
    split; [exact B|exists q; exact A].
  Qed.
End Top.
