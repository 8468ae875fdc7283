(** From a started pipeline with subshells to the network of its processes. *)
From Verif Require Import Py RedirModel RedirSpec RedirProofs Os PerformModel PerformSpec PerformProofs PerformSound RunModel RunSpec RunTopSpec RunProofs RunPre RunMake RunMake2 RunMain RunArgs RunTop RunFinal RunEnds RunMore RunStarted
  IterModel IterSpec IterProofs NetModel NetSpec NetProofs NetTop SubModel SubSpec SubProofs.
#[local] Arguments hp : simpl never.
#[local] Arguments rbind : simpl never.
#[local] Arguments rret : simpl never.

Section Started.
  Variable L : limits.
  Variable pf : ofd -> bool.
  Lemma performs logfd maxfd io ws rs t argv : RunMain.proc_ok L io ws rs t argv -> room L logfd rs t -> find_free_fd rs < maxfd ->
    exists t', perform L logfd maxfd rs t = (t', None) /\ forall m, m < maxfd -> m <> logfd -> refers t' m = program_fd L logfd maxfd rs t m.
  Proof.
    intros [Hw [Hnd [Hao [Hna [Hio [Hseen Hsrc]]]]]] [R1 [R2 R3]] Hmax.
    assert (HP : performable L logfd rs t) by (constructor; auto).
    destruct (perform_correct L logfd maxfd rs t HP) as [t' [E [A [B [C D]]]]]. exists t'. split; [exact E|]. intros m Hm Hl.
    unfold program_fd. rewrite E. cbn [fst]. rewrite (program_sees L logfd maxfd rs t t' m Hw E Hl Hm).
    unfold refers. destruct (dget rs m) as [r|] eqn:Er.
    - rewrite (A m r Er). now destruct (wanted t r).
    - now rewrite (C m Er Hl Hm).
  Qed.
  Lemma start_np piped c cs s s' ret its o0 o1 logfd maxfd :
    refers (s_tab s) 0 = Some o0 -> refers (s_tab s) 1 = Some o1 -> tget (s_tab s) 2 <> None ->
    start L pf piped (chain c cs) s = (s', Ok (ret, its)) ->
    s_np s' = s_np s + List.length cs + (if piped then 1 else 0) /\
    forall rs t argv, In (IProc rs t argv) its -> room L logfd rs t -> find_free_fd rs < maxfd ->
      exists t', perform L logfd maxfd rs t = (t', None) /\ forall m, m < maxfd -> m <> logfd -> refers t' m = program_fd L logfd maxfd rs t m.
  Proof.
    intros H0 H1 H2. rewrite start_is. intros E.
    pose proof (run_hp L pf (chain c cs) INone piped s _ _ (Pre_top L pf _ _ _ piped H0 H1 H2) (clean_chain _ _ _ _)) as H. unfold hp in H. rewrite E in H.
    destruct H as [rs' [_ [_ [_ [_ [Hnp [_ [Hit _]]]]]]]]. cbn [fst snd] in *. split.
    - rewrite Hnp. destruct piped.
      + change (top_env o0 o1 true) with (env3 o0 WPipe). destruct (wire_chain o0 c (s_np s) (s_nt s) cs) as [X _]. cbv zeta in X. destruct X as (_ & -> & _). lia.
      + change (top_env o0 o1 false) with (env3 o0 (WOfd o1)). destruct cs as [|d cs _] using rev_ind.
        * unfold chain, chain_from. rewrite wire_words_plain. cbn. lia.
        * destruct (wire_chain o0 c (s_np s) (s_nt s) cs) as [X _]. cbv zeta in X. destruct X as (Ho & Hn & _).
          rewrite chain_snoc, wire_PPipe. cbv zeta. change (ask_stdout (env3 o0 (WOfd o1))) with (env3 o0 WPipe). rewrite Ho.
          change (feed_stdin (env3 o0 (WOfd o1)) (s_np s + List.length cs)) with (env3 (OPipeR (s_np s + List.length cs)) (WOfd o1)).
          rewrite wire_words_plain. cbn [w_np]. rewrite Hn, app_length. cbn [List.length]. lia.
    - intros rs t argv Hin R F. apply In_nth_error in Hin as [i Hi]. destruct (F2_nth' _ _ _ Hit _ _ Hi) as [lf [_ K]].
      destruct lf as [io ws|]; [|destruct K]. eapply performs; eauto.
  Qed.
End Started.

Lemma NoDup_app_intro {A} (a b : list A) : NoDup a -> NoDup b -> (forall x, In x a -> ~ In x b) -> NoDup (a ++ b).
Proof.
  induction 1 as [|x a Hx _ IH]; intros Hb Hd; [exact Hb|]. cbn. constructor.
  - rewrite in_app_iff. intros [X|X]; [contradiction|]. apply (Hd x); [now left|exact X].
  - apply IH; [exact Hb|]. intros y Hy. apply Hd. now right.
Qed.
(** The stages and their parts. *)
Definition fits (g : stage) (p : part) : Prop :=
  match g, p with
  | Command _, Program _ => True
  | Subshell _ cs, Shell _ its => List.length its = S (List.length cs)
  | _, _ => False
  end.
Lemma fits_len g p : fits g p -> part_len p = List.length (stage_commands g) /\ 0 < part_len p.
Proof. destruct g, p; cbn; try contradiction; unfold part_len; cbn; lia. Qed.
Lemma subs_range : forall gs ps, Forall2 fits gs ps -> forall i c b, nth_error (subs_from i ps) c = Some b -> i <= b_first b /\ b_first b <= b_last b /\ b_last b < i + List.length (spliced gs).
Proof.
  induction 1 as [|g p gs ps F _ IH]; intros i c b E; [now destruct c|]. cbn [subs_from] in E. cbn [spliced flat_map]. rewrite app_length. fold (spliced gs).
  destruct (fits_len g p F) as [El Pl]. destruct p as [it|t its]; cbn [List.app] in E.
  - apply IH in E. unfold part_len in *. cbn in *. lia.
  - destruct c as [|c]; [|cbn in E; apply IH in E; unfold part_len in *; cbn in *; lia]. injection E as <-. cbn. unfold part_len in *. cbn in *. lia.
Qed.
Lemma subs_order : forall gs ps, Forall2 fits gs ps -> forall i c b c' b', c < c' -> nth_error (subs_from i ps) c = Some b -> nth_error (subs_from i ps) c' = Some b' -> b_last b < b_first b'.
Proof.
  induction 1 as [|g p gs ps F HF IH]; intros i c b c' b' Lt E E'; [now destruct c|]. cbn [subs_from] in E, E'.
  destruct (fits_len g p F) as [El Pl]. destruct p as [it|t its]; cbn [List.app] in E, E'; [exact (IH _ _ _ _ _ Lt E E')|].
  destruct c' as [|c']; [lia|]. cbn in E'. destruct c as [|c].
  - injection E as <-. cbn [b_last]. destruct (subs_range _ _ HF _ _ _ E') as [X _]. unfold part_len in *. cbn in *. lia.
  - cbn in E. apply (fun X => IH _ c b c' b' X E E'). lia.
Qed.
Lemma children_cover : forall gs ps, Forall2 fits gs ps -> forall i j,
  (forall t, i <= t < i + List.length (spliced gs) -> In (OwnProgram t) (children_from i j ps) \/
     exists c b, In (OwnSub (j + c)) (children_from i j ps) /\ nth_error (subs_from i ps) c = Some b /\ b_first b <= t <= b_last b) /\
  (forall c, c < List.length (subs_from i ps) -> In (OwnSub (j + c)) (children_from i j ps)) /\
  (forall ch, In ch (children_from i j ps) -> match ch with OwnProgram t => i <= t < i + List.length (spliced gs) | OwnSub c => j <= c < j + List.length (subs_from i ps) end) /\
  (forall l, In l (last_ones i gs) -> In (OwnProgram l) (children_from i j ps) \/ exists c b, In (OwnSub (j + c)) (children_from i j ps) /\ nth_error (subs_from i ps) c = Some b /\ b_last b = l).
Proof.
  induction 1 as [|g p gs ps F HF IH]; intros i j.
  - cbn. split; [intros; lia|]. split; [intros; lia|]. split; [intros ? []|intros ? []].
  - cbn [subs_from children_from last_ones spliced flat_map]. fold (spliced gs). rewrite app_length.
    destruct (fits_len g p F) as [El Pl]. destruct g as [ws|c0 cs0], p as [it|t0 its0]; cbn in F; try contradiction; cbn [stage_commands List.length List.app] in *.
    + unfold part_len. cbn [part_items List.length]. destruct (IH (S i) j) as (A & B & C & D). replace (i + 1) with (S i) by lia. split; [|split; [|split]].
      * intros t Ht. destruct (Nat.eq_dec t i) as [->|]; [left; now left|]. destruct (A t ltac:(lia)) as [X|(c & b & X & Y)]; [left; now right|right; exists c, b; split; [now right|exact Y]].
      * intros c Hc. right. now apply B.
      * intros ch [<-|X]; [lia|]. specialize (C ch X). destruct ch; [lia|exact C].
      * intros l [<-|X]; [left; left; f_equal; lia|]. destruct (D l X) as [Y|(c & b & Y & Z)]; [left; now right|right; exists c, b; split; [now right|exact Z]].
    + unfold part_len. cbn [part_items]. rewrite F. destruct (IH (i + S (List.length cs0)) (S j)) as (A & B & C & D). split; [|split; [|split]].
      * intros t Ht. destruct (Nat.lt_ge_cases t (i + S (List.length cs0))) as [Lt|Ge].
        -- right. exists 0. eexists. split; [left; f_equal; lia|]. split; [reflexivity|]. cbn. lia.
        -- destruct (A t ltac:(lia)) as [X|(c & b & X & Y)]; [left; now right|]. right. exists (S c), b. split; [right; now replace (j + S c) with (S j + c) by lia|exact Y].
      * intros [|c] Hc; [left; f_equal; lia|]. right. replace (j + S c) with (S j + c) by lia. apply B. cbn in Hc. lia.
      * intros ch [<-|X]; [cbn [List.length]; lia|]. specialize (C ch X). destruct ch; cbn [List.length]; lia.
      * intros l [<-|X].
        -- right. exists 0. eexists. split; [left; f_equal; lia|]. split; [reflexivity|]. cbn. lia.
        -- destruct (D l X) as [Y|(c & b & Y & Z)]; [left; now right|]. right. exists (S c), b. split; [right; now replace (j + S c) with (S j + c) by lia|exact Z].
Qed.

Section Wired.
  Variable L : limits.
  Variable pf : ofd -> bool.
  Variables logfd maxfd : nat.
  Hypothesis Hlog : 2 < logfd.
  Hypothesis Hmax : 2 < maxfd.
  Notation none := (fun _ : nat => @None ofd).
  (** A process reads [o], writes pipe [w] and has no other pipe. *)
  Definition sees_as (see : nat -> option ofd) (o : ofd) (w : nat) : Prop :=
    see 0 = Some o /\ see 1 = Some (OPipeW w) /\ (exists k, see 2 = Some (OTmp k)) /\ forall m, 2 < m -> m < maxfd -> m <> logfd -> see m = None.
  Definition inp_of (o : ofd) (ws : list nat) (i : nat) : ofd := match i with 0 => o | S j => OPipeR (nth j ws 0) end.
  Definition linked (o : ofd) (ss : list (nat -> option ofd)) (ws : list nat) : Prop :=
    List.length ss = List.length ws /\ forall i, i < List.length ws -> sees_as (nth i ss none) (inp_of o ws i) (nth i ws 0).
  Lemma inp_app1 o a b i : i <= List.length a -> 0 < i \/ True -> inp_of o (a ++ b) i = inp_of o a i.
  Proof. intros Hi _. destruct i as [|j]; [reflexivity|]. cbn. now rewrite app_nth1 by lia. Qed.
  Lemma inp_app2 o a b i : 0 < List.length a -> inp_of o (a ++ b) (List.length a + i) = inp_of (OPipeR (nth (List.length a - 1) a 0)) b i.
  Proof.
    intros Ha. destruct i as [|j]; cbn [inp_of].
    - rewrite Nat.add_0_r. destruct (List.length a) as [|m] eqn:El; [lia|]. cbn [inp_of]. rewrite app_nth1 by lia. do 2 f_equal. lia.
    - replace (List.length a + S j) with (S (List.length a + j)) by lia. cbn [inp_of]. rewrite app_nth2 by lia. do 2 f_equal. lia.
  Qed.
  Lemma linked_app o ss ws ss' ws' : linked o ss ws -> 0 < List.length ws -> linked (OPipeR (nth (List.length ws - 1) ws 0)) ss' ws' -> linked o (ss ++ ss') (ws ++ ws').
  Proof.
    intros [A1 A2] Hn [B1 B2]. split; [rewrite !app_length; lia|]. intros i Hi. rewrite app_length in Hi. destruct (Nat.lt_ge_cases i (List.length ws)) as [Lt|Ge].
    - rewrite !app_nth1, inp_app1 by (auto; lia). now apply A2.
    - rewrite (app_nth2 ss), (app_nth2 ws) by lia. rewrite A1. replace i with (List.length ws + (i - List.length ws)) at 2 by lia. rewrite inp_app2 by exact Hn. apply B2. lia.
  Qed.
  Definition sub_spec (i : nat) (o : ofd) (ws : list nat) (b : sub) : Prop :=
    exists f l, b_first b = i + f /\ b_last b = i + l /\ f <= l /\ l < List.length ws /\ sees_as (b_sees b) (inp_of o ws f) (nth l ws 0).

  (** What holds of an item of the pipeline itself. *)
  Definition performed (it : item) : Prop :=
    exists rs t argv t', it = IProc rs t argv /\ perform L logfd maxfd rs t = (t', None) /\ forall m, m < maxfd -> m <> logfd -> refers t' m = program_fd L logfd maxfd rs t m.
  Definition roomy_items (its : list item) : Prop := forall rs t argv, In (IProc rs t argv) its -> room L logfd rs t /\ find_free_fd rs < maxfd.
  Lemma start_inner c cs t' np nt s' ret its o w :
    refers t' 0 = Some o -> refers t' 1 = Some (OPipeW w) -> (exists k, refers t' 2 = Some (OTmp k)) -> (forall m, 2 < m -> m < maxfd -> m <> logfd -> refers t' m = None) ->
    start L pf false (chain c cs) (mkSt t' np nt) = (s', Ok (ret, its)) -> roomy_items its ->
    List.length its = S (List.length cs) /\ s_np s' = np + List.length cs /\ sees_as (refers (s_tab s')) o w /\
    linked o (map (item_sees L logfd maxfd) its) (seq np (List.length cs) ++ [w]).
  Proof.
    intros R0 R1 (k2 & R2) R3 Es Rm. assert (A2 : tget t' 2 <> None) by (unfold refers in R2; now destruct (tget t' 2)).
    pose proof (start_chain L pf false c cs (mkSt t' np nt) o (OPipeW w) logfd maxfd R0 R1 A2) as S1. rewrite Es in S1. cbn zeta in S1. cbn [s_np s_nt] in S1. destruct S1 as (Len & Items & _).
    pose proof (start_correct L pf false (chain c cs) (mkSt t' np nt) o (OPipeW w) logfd maxfd R0 R1 A2 (clean_chain _ _ _ _)) as S2. rewrite Es in S2. cbn zeta in S2. destruct S2 as (_ & _ & _ & _ & Same).
    destruct (start_np L pf false c cs (mkSt t' np nt) s' ret its o (OPipeW w) logfd maxfd R0 R1 A2 Es) as [Np _].
    assert (Each : forall i, i <= List.length cs -> exists ws rs t argv, nth_error (c :: cs) i = Some ws /\ nth_error its i = Some (IProc rs t argv)).
    { intros i Hi. destruct (nth_error (c :: cs) i) as [ws|] eqn:E.
      - destruct (Items i ws E) as (rs & t & argv & X & _). exists ws, rs, t, argv. now split.
      - apply nth_error_None in E. cbn in E. lia. }
    split; [exact Len|]. split; [cbn [s_np] in Np; lia|]. split.
    - assert (Eq : forall m, refers (s_tab s') m = refers t' m).
      { intros m. unfold refers. rewrite (Same m); [reflexivity|]. cbn [List.app]. 
        assert (Nil : function_fds its = []); [|rewrite Nil; intros []].
        assert (All : forall it, In it its -> exists rs t argv, it = IProc rs t argv).
        { intros it Hit. apply In_nth_error in Hit as [i Hi]. assert (Hl : i < List.length its) by (apply nth_error_Some; congruence).
          destruct (Each i ltac:(lia)) as (ws & rs & t & argv & _ & X). rewrite Hi in X. injection X as ->. eauto. }
        clear -All. induction its as [|it its' IH]; [reflexivity|]. destruct (All it (or_introl eq_refl)) as (rs & t & argv & ->). cbn. apply IH. intros it' Hit. apply All. now right. }
      unfold sees_as. rewrite !Eq. split; [exact R0|]. split; [exact R1|]. split; [eauto|]. intros m M1 M2 M3. rewrite Eq. auto.
    - split; [rewrite map_length, app_length, seq_length; cbn; lia|]. intros i Hi. rewrite app_length, seq_length in Hi. cbn [List.length] in Hi.
      destruct (Each i ltac:(lia)) as (ws & rs & t & argv & Ew & Ei). destruct (Items i ws Ew) as (rs' & t0 & argv' & Ei' & P). rewrite Ei in Ei'. injection Ei' as <- <- <-.
      destruct (Rm rs t argv (nth_error_In _ _ Ei)) as [R F]. destruct (P R F) as (_ & B0 & B1 & B2 & B3).
      rewrite (nth_indep _ _ (item_sees L logfd maxfd (IProc rs t argv))) by (rewrite map_length; lia). rewrite map_nth, (nth_error_nth _ _ _ Ei). cbn [item_sees].
      assert (Nw : forall q, q < List.length cs -> nth q (seq np (List.length cs) ++ [w]) 0 = np + q) by (intros q Hq; rewrite app_nth1 by (rewrite seq_length; exact Hq); now apply seq_nth).
      split; [|split; [|split; [eauto|exact B3]]].
      + rewrite B0. f_equal. destruct i as [|j]; [reflexivity|]. cbn [inp_of]. rewrite Nw by lia. reflexivity.
      + rewrite B1. do 1 f_equal. destruct (Nat.eqb_spec i (List.length cs)) as [->|Ne].
        * rewrite app_nth2 by (rewrite seq_length; lia). rewrite seq_length, Nat.sub_diag. reflexivity.
        * rewrite Nw by lia. reflexivity.
  Qed.

  Variable base : nat.
  Variable oin : nat -> ofd.
  Hypothesis oinS : forall k, oin (S k) = OPipeR (base + k).
  Lemma enter_wired : forall gs its a np nt parts i,
    enter_all L pf logfd maxfd gs its np nt = Some parts ->
    (forall k it, nth_error its k = Some it -> sees_as (item_sees L logfd maxfd it) (oin (a + k)) (base + (a + k)) /\ performed it) ->
    roomy_items (flat_map part_items parts) ->
    base + a + List.length its <= np ->
    Forall2 fits gs parts /\
    exists ws, List.length ws = List.length (spliced gs) /\ linked (oin a) (parts_sees L logfd maxfd parts) ws /\
      (gs <> [] -> nth (List.length ws - 1) ws 0 = base + a + (List.length gs - 1)) /\
      NoDup ws /\ (forall w, In w ws -> base + a <= w /\ w < base + a + List.length its \/ np <= w) /\
      (forall b, In b (subs_from i parts) -> sub_spec i (oin a) ws b).
  Proof.
    induction gs as [|g gs IH]; intros its a np nt parts i E It Rm Hnp.
    - destruct its; [|discriminate]. injection E as <-. split; [constructor|]. exists []. split; [reflexivity|]. split; [split; [reflexivity|cbn; intros; lia]|]. split; [congruence|]. split; [constructor|]. split; [intros w []|intros b []].
    - destruct its as [|it its]; [discriminate|]. cbn [enter_all] in E. destruct (enter L pf logfd maxfd g it np nt) as [[[p np1] nt1]|] eqn:Ee; [|discriminate].
      destruct (enter_all L pf logfd maxfd gs its np1 nt1) as [ps|] eqn:Ea; [|discriminate]. injection E as <-.
      destruct (It 0 it eq_refl) as [Si Pi]. rewrite Nat.add_0_r in Si.
      assert (Rp : roomy_items (part_items p)) by (intros rs t argv X; apply (Rm rs t argv); cbn; apply in_app_iff; now left).
      assert (Rps : roomy_items (flat_map part_items ps)) by (intros rs t argv X; apply (Rm rs t argv); cbn; apply in_app_iff; now right).
      (* this stage *)
      assert (This : fits g p /\ np <= np1 /\ exists ws0, List.length ws0 = part_len p /\ linked (oin a) (map (item_sees L logfd maxfd) (part_items p)) ws0 /\
        nth (List.length ws0 - 1) ws0 0 = base + a /\ NoDup ws0 /\ (forall w, In w ws0 -> w = base + a \/ np <= w < np1) /\
        (forall b, In b (subs_from i [p]) -> sub_spec i (oin a) ws0 b)).
      { destruct g as [ws|c cs]; cbn [enter] in Ee.
        - injection Ee as <- <- <-. split; [exact Logic.I|]. split; [lia|]. exists [base + a]. split; [reflexivity|]. split; [|split; [reflexivity|split; [|split]]].
          + split; [reflexivity|]. cbn [List.length]. intros [|k] Hk; [exact Si|lia].
          + repeat constructor. intros [].
          + intros w [<-|[]]. now left.
          + intros b [].
        - destruct Pi as (rs & t & argv & t' & -> & Ep & Rf). rewrite Ep in Ee. destruct (start L pf false (chain c cs) (mkSt t' np nt)) as [s' [[ret its0]|e]] eqn:Es; [|discriminate].
          injection Ee as <- <- <-. destruct Si as (S0 & S1 & (k2 & S2) & S3). cbn [item_sees] in *. cbn [part_items] in Rp.
          rewrite <- (Rf 0) in S0 by lia. rewrite <- (Rf 1) in S1 by lia. rewrite <- (Rf 2) in S2 by lia.
          destruct (start_inner c cs t' np nt s' ret its0 (oin a) (base + a) S0 S1 (ex_intro _ _ S2)) as (Ln & Np & Sb & Lk); auto.
          { intros m M1 M2 M3. rewrite Rf by assumption. auto. }
          split; [exact Ln|]. split; [lia|]. exists (seq np (List.length cs) ++ [base + a]).
          assert (Ll : List.length (seq np (List.length cs) ++ [base + a]) = S (List.length cs)) by (rewrite app_length, seq_length; cbn; lia).
          assert (Nl : nth (List.length cs) (seq np (List.length cs) ++ [base + a]) 0 = base + a) by (rewrite app_nth2 by (rewrite seq_length; lia); now rewrite seq_length, Nat.sub_diag).
          split; [rewrite Ll; unfold part_len; cbn; lia|]. split; [exact Lk|]. split; [rewrite Ll; replace (S (List.length cs) - 1) with (List.length cs) by lia; exact Nl|]. split; [|split].
          + apply NoDup_app_intro; [apply seq_NoDup|repeat constructor; intros []|]. intros w Hw [<-|[]]. apply in_seq in Hw. cbn [List.length] in Hnp. lia.
          + intros w Hw. apply in_app_iff in Hw as [Hw|[<-|[]]]; [apply in_seq in Hw; right; lia|now left].
          + intros b [<-|[]]. exists 0, (List.length cs). cbn [b_first b_last b_sees]. split; [lia|]. split; [lia|]. split; [lia|]. split; [lia|]. rewrite Nl. exact Sb. }
      destruct This as (Fg & Le & ws0 & L0 & K0 & N0 & U0 & I0 & B0). pose proof (fits_len g p Fg) as [Lg Pg].
      destruct (IH its (S a) np1 nt1 ps (i + part_len p) Ea) as (F1 & ws1 & L1 & K1 & N1 & U1 & I1 & B1); auto.
      { intros k it' Ek. destruct (It (S k) it' Ek) as [X Y]. replace (S a + k) with (a + S k) by lia. auto. }
      { cbn [List.length] in Hnp. lia. }
      assert (Og : oin (S a) = OPipeR (nth (List.length ws0 - 1) ws0 0)) by (rewrite N0; apply oinS).
      assert (Eits : List.length its = List.length gs).
      { clear -Ea. revert its np1 nt1 ps Ea. induction gs as [|g' gs' IHg]; intros [|it' its'] np1 nt1 ps Ea; try discriminate; [reflexivity|]. cbn [enter_all] in Ea. destruct (enter L pf logfd maxfd g' it' np1 nt1) as [[[p' np'] nt']|]; [|discriminate].
        destruct (enter_all L pf logfd maxfd gs' its' np' nt') as [ps'|] eqn:E'; [|discriminate]. cbn. f_equal. eapply IHg. exact E'. }
      split; [now constructor|]. exists (ws0 ++ ws1). split; [|split; [|split; [|split; [|split]]]].
      + cbn [spliced flat_map]. rewrite !app_length. fold (spliced gs). lia.
      + unfold parts_sees. cbn [flat_map]. rewrite map_app. apply linked_app; [exact K0|lia|]. rewrite <- Og. exact K1.
      + intros _. rewrite app_length. destruct gs as [|g' gs'].
        * inversion F1; subst. cbn in L1. destruct ws1; [|discriminate]. rewrite app_nil_r. cbn [List.length]. rewrite !Nat.add_0_r, N0. lia.
        * specialize (N1 ltac:(discriminate)). assert (0 < List.length ws1) by (rewrite L1; cbn [spliced flat_map]; rewrite app_length; destruct g'; cbn; lia).
          rewrite app_nth2 by lia. replace (List.length ws0 + List.length ws1 - 1 - List.length ws0) with (List.length ws1 - 1) by lia. rewrite N1. cbn [List.length]. lia.
      + apply NoDup_app_intro; auto. intros w A B. destruct (I0 w A) as [->|X], (I1 _ B) as [Y|Y]; cbn [List.length] in Hnp; lia.
      + intros w Hw. apply in_app_iff in Hw as [Hw|Hw]; [destruct (I0 w Hw) as [->|X]; cbn [List.length]; lia|]. destruct (I1 w Hw) as [X|X]; cbn [List.length]; lia.
      + intros b Hb. cbn [subs_from] in Hb. apply in_app_iff in Hb as [Hb|Hb].
        * destruct (B0 b) as (f & l & X1 & X2 & X3 & X4 & X5); [cbn [subs_from]; apply in_app_iff; now left|]. exists f, l. split; [exact X1|]. split; [exact X2|]. split; [exact X3|].
          split; [rewrite app_length; lia|]. rewrite inp_app1 by (auto; lia). rewrite app_nth1 by lia. exact X5.
        * destruct (B1 b Hb) as (f & l & X1 & X2 & X3 & X4 & X5). exists (List.length ws0 + f), (List.length ws0 + l). split; [lia|]. split; [lia|]. split; [lia|]. split; [rewrite app_length; lia|].
          rewrite inp_app2 by lia. rewrite app_nth2 by lia. replace (List.length ws0 + l - List.length ws0) with l by lia. rewrite <- Og. exact X5.
  Qed.
End Wired.
