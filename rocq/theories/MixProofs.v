(** Proofs about running pipelines of programs and python functions. *)
From Verif Require Import Py RedirModel Os PerformModel PerformSpec RunModel RunSpec RunTopSpec IterModel IterSpec IterProofs NetModel NetSpec NetProofs SrcModel MixModel MixSpec.

(** ** Functions on bytes *)
Definition fok (e : iend) : bool := match e with EStop => true | ERaise _ => false end.
(** The first line and what follows. *)
Definition cut (b : list N) : option (list N * list N) :=
  match b with [] => None | _ => Some (split1 (if has_nl b then b else b ++ [nl])) end.
Lemma split1_more b r : has_nl b = true -> split1 (b ++ r) = (fst (split1 b), snd (split1 b) ++ r).
Proof.
  induction b as [|c b IH]; [discriminate|]. cbn [has_nl existsb split1 List.app]. destruct (N.eqb nl c) eqn:E; [reflexivity|].
  cbn [orb]. intros X. rewrite IH by exact X. destruct (split1 b). reflexivity.
Qed.
Lemma cut_more b r : has_nl b = true -> cut (b ++ r) = Some (fst (split1 b), snd (split1 b) ++ r).
Proof.
  intros X. assert (has_nl (b ++ r) = true) as Y by (rewrite has_nl_app, X; reflexivity).
  unfold cut. rewrite Y. destruct (b ++ r) eqn:E; [discriminate|]. rewrite <- E. f_equal. now apply split1_more.
Qed.
Section Fruns.
  Variable P : Prop.
  Variable m : nat.
  (** [c]: an upper bound of the number of steps; if [P], all values are short. *)
  Inductive fruns : nat -> fn -> list N -> list N -> bool -> Prop :=
  | fr_end c e inp : fruns (S c) (FEnd e) inp [] (fok e)
  | fr_none c k inp out ok : fruns c k inp out ok -> fruns (S c) (FGive None k) inp out ok
  | fr_give c b k inp out ok : (P -> List.length b < m) -> fruns c k inp out ok -> fruns (S c) (FGive (Some b) k) inp ((b ++ [nl]) ++ out) ok
  | fr_line c k inp l r out ok : cut inp = Some (l, r) -> fruns c (k (Some l)) r out ok -> fruns (S c) (FAsk k) inp out ok
  | fr_over c k out ok : fruns c (k None) [] out ok -> fruns (S c) (FAsk k) [] out ok.
  Lemma fruns_pos c f inp out ok : fruns c f inp out ok -> 0 < c.
  Proof. destruct 1; lia. Qed.
  Lemma fruns_end c e inp out ok : fruns c (FEnd e) inp out ok -> out = [] /\ ok = fok e.
  Proof. intros X. inversion X; auto. Qed.
  Lemma fruns_none c k inp out ok : fruns c (FGive None k) inp out ok -> exists c', S c' = c /\ fruns c' k inp out ok.
  Proof. intros X. inversion X; subst. eauto. Qed.
  Lemma fruns_give c b k inp out ok : fruns c (FGive (Some b) k) inp out ok -> exists c' o, S c' = c /\ out = (b ++ [nl]) ++ o /\ (P -> List.length b < m) /\ fruns c' k inp o ok.
  Proof. intros X. inversion X; subst. eauto 6. Qed.
  Lemma fruns_ask c k inp out ok : fruns c (FAsk k) inp out ok -> exists c', S c' = c /\
    match cut inp with Some (l, r) => fruns c' (k (Some l)) r out ok | None => fruns c' (k None) [] out ok end.
  Proof. intros X. inversion X as [| | |c' k' inp' l r out' ok' E F|c' k' out' ok' F]; subst; eexists; (split; [reflexivity|]); [rewrite E|cbn]; exact F. Qed.
End Fruns.
(** [asks_all] on bytes. *)
Inductive fasks : fn -> list N -> Prop :=
| fas_over k : fasks (FAsk k) []
| fas_line k inp l r : cut inp = Some (l, r) -> fasks (k (Some l)) r -> fasks (FAsk k) inp
| fas_give v k inp : fasks k inp -> fasks (FGive v k) inp.
Lemma fasks_ask k inp : fasks (FAsk k) inp -> match cut inp with Some (l, r) => fasks (k (Some l)) r | None => True end.
Proof. intros X. inversion X as [k'|k' inp' l r E F|]; subst; [exact Logic.I|]. now rewrite E. Qed.
Lemma fasks_give v k inp : fasks (FGive v k) inp -> fasks k inp.
Proof. intros X. now inversion X. Qed.
Lemma fasks_end e inp : ~ fasks (FEnd e) inp.
Proof. intros X. inversion X. Qed.

(** ** Items *)
Definition wl (st : istate) : bool := match st with SProc (Some _) => true | SProc None => false | SFun g => g_open g end.
Definition rl (st : istate) : bool := match st with SProc (Some _) => true | SProc None => false | SFun g => li_open (g_in g) end.
Definition proc (st : istate) : bool := match st with SProc _ => true | SFun _ => false end.
(** What an item does with all the input that is left. *)
Definition idoes (P : Prop) (m : nat) (c : nat) (st : istate) (inp out : list N) (ok : bool) : Prop :=
  match st with SProc (Some p) => givesn c p inp true out (Some ok) | SProc None => False | SFun g => fruns P m c (g_code g) inp out ok end.
Definition ireads (st : istate) (inp : list N) : Prop :=
  match st with SProc (Some p) => reads_all p inp | SProc None => True | SFun g => fasks (g_code g) inp end.
(** What is left of the input; [fd]: what is in the pipe or will come. *)
Definition left (st : istate) (fd : list N) : list N :=
  match st with SProc _ => fd | SFun g => li_buf (g_in g) ++ (if li_eof (g_in g) then [] else fd) end.
Definition more (st : istate) (fd : list N) : nat :=
  match st with SProc _ => 0 | SFun g => if li_eof (g_in g) then 0 else S (List.length fd) end.
Record fun_ok (i : nat) (g : fstate) : Prop := {
  fo_open : li_open (g_in g) = negb (li_eof (g_in g));
  fo_first : i = 0 -> li_eof (g_in g) = true;
  fo_done : g_open g = match g_done g with None => true | Some _ => false end;
  fo_over : g_phase g = QOver -> g_open g = false;
  fo_fut : li_fut (g_in g) = match g_phase g with QWaiting => true | _ => false end;
  fo_wait : g_phase g = QWaiting -> li_eof (g_in g) = false /\ has_nl (li_buf (g_in g)) = false }.

Section Mix.
  Variable H : Type.
  Variable h_wants : H -> bool.
  Variable h_event : H -> bytes -> H * bool.
  Variable h_next h_resume : H -> H * outcome.
  Variable h_open : H -> bool.
  Variables np cap pipe_buf : nat.
  Variable fds : list nat.
  Variable sees : list (nat -> option ofd).
  Variable shell : tab.
  Variables x n : nat.
  Notation K := (np + n).
  Notation see i := (nth i sees (fun _ => None)).
  Notation item s i := (nth i (m_items s) (SProc None)).
  Notation rstepH := (rstep H h_wants h_event h_next h_resume h_open true).
  Notation rstepsH := (rsteps H h_wants h_event h_next h_resume h_open true).
  Notation mstepH := (mstep H h_wants h_event h_next h_resume h_open np cap pipe_buf fds sees shell x K).
  Notation mstepsH := (msteps H h_wants h_event h_next h_resume h_open np cap pipe_buf fds sees shell x K).
  Notation proc_goesH := (proc_goes H h_open np cap fds sees shell x K).
  Notation w_leftH := (w_left H h_open fds sees shell x).
  Notation r_leftH := (r_left H h_open fds sees shell x).
  Notation closesH := (item_closes H h_open fds sees shell x K).
  Notation mpushH := (mpush H K).
  Notation mpopH := (mpop H K).
  Hypothesis Hlen : List.length sees = S n.
  Hypothesis Hin0 : forall k, see 0 0 = Some (OPipeR k) -> k < np.
  Hypothesis HinS : forall j, j < n -> see (S j) 0 = Some (OPipeR (np + j)).
  Hypothesis Hout : forall i, i <= n -> see i 1 = Some (OPipeW (np + i)).
  Hypothesis Hw : forall i m k, i <= n -> In m fds -> np <= k -> see i m = Some (OPipeW k) -> k = np + i.
  Hypothesis Hr : forall i m k, i <= n -> In m fds -> np <= k -> see i m = Some (OPipeR k) -> exists j, i = S j /\ k = np + j.
  Hypothesis H0 : In 0 fds.
  Hypothesis H1 : In 1 fds.
  Hypothesis Hsw : forall m k, refers shell m = Some (OPipeW k) -> k < np.
  Hypothesis Hsr : forall m k, refers shell m = Some (OPipeR k) -> np <= k -> m = x.
  Hypothesis Hx : refers shell x = Some (OPipeR K).
  Variable RI : rstate H -> Prop.
  Hypothesis RI_step : forall r l r', RI r -> rstepH r l = Some r' -> RI r'.
  Hypothesis RI_open : forall r, RI r -> h_open (r_h r) = false -> r_wopen r = false.
  Hypothesis RI_eof : forall r, RI r -> r_phase r = PAtEof -> r_wopen r = false.

  Lemma some_item_spec test : (forall sf, test (SProc None) sf = false) -> forall its ss, some_item test its ss = true <->
    exists i, i < List.length ss /\ test (nth i its (SProc None)) (nth i ss (fun _ => None)) = true.
  Proof.
    intros T0. induction its as [|st its IH]; intros ss; cbn [some_item].
    - split; [discriminate|]. intros (i & _ & E). destruct i; cbn in E; rewrite T0 in E; discriminate.
    - destruct ss as [|s ss].
      + split; [discriminate|]. intros (i & X & _). cbn in X. lia.
      + rewrite orb_true_iff, IH. split.
        * intros [X|(i & A & B)]; [exists 0; cbn; split; [lia|exact X]|exists (S i); cbn; split; [lia|exact B]].
        * intros ([|i] & A & B); cbn in *; [now left|right]. exists i. split; [lia|exact B].
  Qed.
  Lemma w_left_spec its rd i : i <= n -> w_leftH its rd (np + i) = wl (nth i its (SProc None)).
  Proof.
    intros Hi. unfold w_left. rewrite (shell_has_w H h_open np sees shell x n Hlen Hsw), orb_false_r. apply eq_true_iff_eq. rewrite some_item_spec by reflexivity. split.
    - intros (j & Hj & A). unfold holds_w in A. destruct (nth j its (SProc None)) as [[p|]|g] eqn:E; [|discriminate|].
      + apply has_spec in A as (m & Im & Em). apply is_w_spec in Em. apply Hw in Em; [|lia|exact Im|lia]. assert (j = i) as -> by lia. now rewrite E.
      + apply andb_prop in A as [A B]. apply is_w_spec in B. rewrite Hout in B by lia. injection B as B. assert (j = i) as -> by lia. now rewrite E.
    - intros A. exists i. split; [lia|]. unfold holds_w. destruct (nth i its (SProc None)) as [[p|]|g] eqn:E; [|discriminate|].
      + apply has_spec. exists 1. split; [exact H1|]. apply is_w_spec. now apply Hout.
      + cbn in A. rewrite A. apply is_w_spec. now apply Hout.
  Qed.
  Lemma r_left_spec s i : i <= n -> r_leftH s (np + i) = if Nat.eqb i n then h_open (r_h (m_rd s)) else rl (item s (S i)).
  Proof.
    intros Hi. unfold r_left. rewrite (shell_has_r H h_open np sees shell x n Hlen Hsr Hx). apply eq_true_iff_eq. rewrite orb_true_iff, some_item_spec by reflexivity. split.
    - intros [(j & Hj & A)|A].
      + unfold holds_r in A. destruct (item s j) as [[p|]|g] eqn:E; [|discriminate|].
        * apply has_spec in A as (m & Im & Em). apply is_r_spec in Em. apply Hr in Em as (j' & -> & Em); [|lia|exact Im|lia].
          assert (j' = i) as -> by lia. destruct (Nat.eqb_spec i n); [lia|]. now rewrite E.
        * apply andb_prop in A as [A B]. apply is_r_spec in B. destruct j as [|j]; [apply Hin0 in B; lia|]. rewrite HinS in B by lia. injection B as B.
          assert (j = i) as -> by lia. destruct (Nat.eqb_spec i n); [lia|]. now rewrite E.
      + apply andb_prop in A as [A B]. now rewrite A.
    - destruct (Nat.eqb_spec i n) as [->|Ne]; [intros ->; now right|]. intros A. left. exists (S i). split; [lia|]. unfold holds_r. destruct (item s (S i)) as [[p|]|g] eqn:E; [|discriminate|].
      + apply has_spec. exists 0. split; [exact H0|]. apply is_r_spec. apply HinS. lia.
      + cbn in A. rewrite A. apply is_r_spec. apply HinS. lia.
  Qed.
  Lemma K_ne j : j < n -> (np + j =? K) = false.
  Proof. intros. apply Nat.eqb_neq. lia. Qed.
  Lemma ours_np j : ours np (np + j) = true.
  Proof. apply Nat.leb_le. lia. Qed.

  (** ** The invariant *)
  Variable out : list N.
  Variable oks : nat -> bool.
  Variable T : Prop.                   (* everybody reads everything; values are short *)
  Variable m : nat.
  Definition feed (s : mix H) (ws : nat -> list N) (i : nat) : list N :=
    match i with 0 => m_in s | S j => m_pipes s (np + j) ++ ws j end.
  Definition pend (s : mix H) (i : nat) : list N :=
    match m_wr s with Some (j, _, rest) => if Nat.eqb j i then rest else [] | None => [] end.
  Definition unread (s : mix H) (i : nat) : Prop := i < n /\ rl (item s (S i)) = false.
  Definition ahead (s : mix H) (ws : nat -> list N) (c : nat) (i : nat) : Prop :=
    exists o, ws i = pend s i ++ o /\ idoes T m c (item s i) (left (item s i) (feed s ws i)) o (oks i).
  Record minv (s : mix H) (ws : nat -> list N) (cs : nat -> nat) : Prop := {
    v_len : List.length (m_items s) = S n;
    v_live : forall i, i <= n -> wl (item s i) = true -> unread s i \/ ahead s ws (cs i) i;
    v_dead : forall i, i <= n -> wl (item s i) = false -> ws i = [] \/ unread s i;
    v_fun : forall i g, item s i = SFun g -> fun_ok i g;
    v_eof : forall j g, item s (S j) = SFun g -> li_eof (g_in g) = true -> wl (item s j) = false;
    v_wr : forall i k rest, m_wr s = Some (i, k, rest) -> exists g, item s i = SFun g /\ g_open g = true /\ g_phase g = QIdle;
    v_sent : r_sent (m_rd s) ++ ws n = out;
    v_wopen : r_wopen (m_rd s) = wl (item s n);
    v_in0 : see 0 0 = None -> m_in s = [];
    v_rd : RI (m_rd s);
    v_all : T -> forall j, wl (item s (S j)) = true -> ireads (item s (S j)) (left (item s (S j)) (feed s ws (S j))) \/ wl (item s j) = false;
    v_order : T -> forall j, j < n -> wl (item s (S j)) = false -> wl (item s j) = false;
    v_ok1 : T -> m_ok s = false -> exists i, i <= n /\ wl (item s i) = false /\ oks i = false;
    v_ok2 : T -> forall i, i <= n -> wl (item s i) = false -> oks i = false -> m_ok s = false;
    v_told : forall i, m_told s i = true -> wl (item s i) = false;
    v_wake : T -> m_at_eof H (m_rd s) = true -> m_woken s = false -> exists i, i <= n /\ proc (item s i) = true /\ m_told s i = false;
    v_end : ended (r_out (m_rd s)) -> forall i, i <= n -> wl (item s i) = false;
    v_stop : In GStop (r_out (m_rd s)) -> m_ok s = true;
    v_failed : In GFailed (r_out (m_rd s)) -> m_ok s = false }.
  Definition size (s : mix H) (ws : nat -> list N) (cs : nat -> nat) (i : nat) : nat := cs i + more (item s i) (feed s ws i).

  Lemma item_lt (s : mix H) st i : item s i = st -> wl st = true -> i < List.length (m_items s).
  Proof. intros E W. destruct (Nat.lt_ge_cases i (List.length (m_items s))) as [X|X]; [exact X|]. rewrite nth_overflow in E by exact X. subst st. discriminate. Qed.
  Lemma T_read s ws cs i : minv s ws cs -> T -> wl (item s i) = true -> ~ unread s i.
  Proof.
    intros I HT W [Hi R]. destruct (item s (S i)) as [[p|]|g] eqn:E; [discriminate| |].
    - rewrite (v_order s ws cs I HT i Hi) in W; [discriminate|]. now rewrite E.
    - cbn in R. pose proof (v_fun s ws cs I _ _ E) as F. rewrite (fo_open _ _ F) in R. apply negb_false_iff in R.
      rewrite (v_eof s ws cs I i g E R) in W. discriminate.
  Qed.
  (** Item [i] changes. *)
  Lemma inv_upd s ws cs i st' (s1 : mix H) ws' c :
    minv s ws cs -> i <= n ->
    m_items s1 = set_nth (m_items s) i st' -> proc st' = proc (item s i) ->
    (forall j, j <> i -> ws' j = ws j) ->
    (forall j, j <= n -> j <> i -> feed s1 ws' j = feed s ws j) ->
    (forall j, j <> i -> pend s1 j = pend s j) ->
    (wl st' = true -> wl (item s i) = true) -> (rl st' = true -> rl (item s i) = true) ->
    (wl st' = true -> unread s i \/ exists o, ws' i = pend s1 i ++ o /\ idoes T m c st' (left st' (feed s1 ws' i)) o (oks i)) ->
    (wl st' = false -> ws' i = [] \/ unread s i) ->
    (forall g, st' = SFun g -> fun_ok i g) ->
    (forall g j, st' = SFun g -> i = S j -> li_eof (g_in g) = true -> wl (item s j) = false) ->
    (forall j k rest, m_wr s1 = Some (j, k, rest) -> (j <> i /\ m_wr s = Some (j, k, rest)) \/ (j = i /\ exists g, st' = SFun g /\ g_open g = true /\ g_phase g = QIdle)) ->
    r_sent (m_rd s1) ++ ws' n = out -> r_wopen (m_rd s1) = (if Nat.eqb n i then wl st' else wl (item s n)) ->
    (see 0 0 = None -> m_in s1 = []) -> RI (m_rd s1) -> r_phase (m_rd s1) = r_phase (m_rd s) -> r_out (m_rd s1) = r_out (m_rd s) ->
    (T -> forall j, i = S j -> wl st' = true -> ireads st' (left st' (feed s1 ws' i)) \/ wl (item s j) = false) ->
    (T -> forall j, i = S j -> wl st' = false -> wl (item s j) = false) ->
    (m_ok s1 = m_ok s /\ wl st' = wl (item s i)) \/ (wl (item s i) = true /\ wl st' = false /\ exists ok, m_ok s1 = m_ok s && ok /\ (T -> ok = oks i)) ->
    m_told s1 = m_told s -> m_woken s1 = m_woken s ->
    minv s1 ws' (upd cs i c) /\ (forall j, j <= n -> j <> i -> size s1 ws' (upd cs i c) j = size s ws cs j) /\ size s1 ws' (upd cs i c) i = c + more st' (feed s1 ws' i).
  Proof.
    intros I Hi Eits Epr Ews Efd Epd Mw Mr Lv Dd Fo Fe Wr Se Wo I0 R0 Ph Ro Al Or Ok To Wk.
    assert (Hil : i < List.length (m_items s)) by (rewrite (v_len s ws cs I); lia).
    assert (At : item s1 i = st') by (rewrite Eits, nth_set_nth, Nat.eqb_refl by exact Hil; reflexivity).
    assert (Same : forall j, j <> i -> item s1 j = item s j).
    { intros j Hj. rewrite Eits, nth_set_nth by exact Hil. now destruct (Nat.eqb_spec j i). }
    assert (Wm : forall j, wl (item s1 j) = true -> wl (item s j) = true).
    { intros j. destruct (Nat.eq_dec j i) as [->|Ne]; [rewrite At; exact Mw|rewrite Same by exact Ne; auto]. }
    assert (Wf : forall j, wl (item s j) = false -> wl (item s1 j) = false).
    { intros j X. destruct (wl (item s1 j)) eqn:Y; [apply Wm in Y; congruence|reflexivity]. }
    assert (Um : forall j, unread s j -> unread s1 j).
    { intros j [A B]. split; [exact A|]. destruct (Nat.eq_dec (S j) i) as [E|Ne]; [|now rewrite Same]. rewrite E in *. rewrite At. destruct (rl st') eqn:Y; [specialize (Mr eq_refl); congruence|reflexivity]. }
    split; [constructor|split].
    - rewrite Eits, set_nth_length. apply I.
    - intros j Hj W. destruct (Nat.eq_dec j i) as [->|Ne].
      + rewrite At in W. rewrite upd_eq. destruct (Lv W) as [X|X]; [left; auto|right]. unfold ahead. now rewrite At.
      + pose proof W as W'. rewrite Same in W' by exact Ne. rewrite upd_ne by exact Ne. destruct (v_live s ws cs I j Hj W') as [X|(o & A & B)]; [left; auto|right]. exists o. rewrite Epd, Ews, Efd, Same by assumption. auto.
    - intros j Hj W. destruct (Nat.eq_dec j i) as [->|Ne]; [rewrite At in W; destruct (Dd W); auto|]. rewrite Ews by exact Ne. rewrite Same in W by exact Ne. destruct (v_dead s ws cs I j Hj W); auto.
    - intros j g E. destruct (Nat.eq_dec j i) as [->|Ne]; [rewrite At in E; auto|]. rewrite Same in E by exact Ne. now apply (v_fun s ws cs I).
    - intros j g E Y. apply Wf. destruct (Nat.eq_dec (S j) i) as [<-|Ne]; [rewrite At in E; eapply Fe; eauto|]. rewrite Same in E by exact Ne. eapply (v_eof s ws cs I); eauto.
    - intros j k rest E. destruct (Wr j k rest E) as [[Ne X]|[-> X]]; [rewrite Same by exact Ne; now apply (v_wr s ws cs I _ _ _ X)|now rewrite At].
    - exact Se.
    - rewrite Wo. destruct (Nat.eqb_spec n i) as [->|Ne]; [now rewrite At|]. now rewrite Same.
    - exact I0.
    - exact R0.
    - intros HT j. destruct (Nat.eq_dec (S j) i) as [E|Ne].
      + rewrite E, At. intros W. destruct (Al HT j (eq_sym E) W) as [X|X]; [now left|right; auto].
      + intros W. pose proof W as W'. rewrite Same in W' by exact Ne. assert (S j <= n) by (pose proof (item_lt s _ (S j) eq_refl W') as X; rewrite (v_len s ws cs I) in X; lia).
        destruct (v_all s ws cs I HT j W') as [X|X]; [left|right; auto]. rewrite Efd, Same by assumption. exact X.
    - intros HT j Hj W. destruct (Nat.eq_dec (S j) i) as [E|Ne]; [rewrite E, At in W; apply Wf; eapply Or; eauto|]. rewrite Same in W by exact Ne. apply Wf. now apply (v_order s ws cs I HT).
    - intros HT E. destruct Ok as [[A B]|(A & B & ok & D & F)].
      + rewrite A in E. destruct (v_ok1 s ws cs I HT E) as (j & X & Y & Z). exists j. auto.
      + destruct (m_ok s) eqn:Em; [|destruct (v_ok1 s ws cs I HT Em) as (j & X & Y & Z); exists j; auto]. exists i. split; [exact Hi|]. rewrite At. split; [exact B|]. rewrite <- (F HT). rewrite D in E. exact E.
    - intros HT j Hj W Ej. destruct Ok as [[A B]|(A & B & ok & D & F)].
      + rewrite A. apply (v_ok2 s ws cs I HT j Hj); [|exact Ej]. destruct (Nat.eq_dec j i) as [->|Ne]; [rewrite <- B; now rewrite At in W|]. now rewrite Same in W.
      + rewrite D. destruct (Nat.eq_dec j i) as [->|Ne]; [rewrite (F HT), Ej; apply andb_false_r|]. rewrite Same in W by exact Ne. now rewrite (v_ok2 s ws cs I HT j Hj W Ej).
    - intros j. rewrite To. intros X. apply Wf. now apply (v_told s ws cs I).
    - intros HT. unfold m_at_eof. rewrite Ph, Wk, To. intros A B. destruct (v_wake s ws cs I HT A B) as (j & X & Y & Z). exists j. split; [exact X|]. split; [|exact Z].
      destruct (Nat.eq_dec j i) as [->|Ne]; [rewrite At, Epr; exact Y|]. now rewrite Same.
    - rewrite Ro. intros X j Hj. apply Wf. now apply (v_end s ws cs I X).
    - rewrite Ro. intros X. pose proof (v_end s ws cs I (or_introl X) i Hi) as Y. destruct Ok as [[A B]|(A & _)]; [|congruence]. rewrite A. now apply (v_stop s ws cs I).
    - rewrite Ro. intros X. pose proof (v_end s ws cs I (or_intror X) i Hi) as Y. destruct Ok as [[A B]|(A & _)]; [|congruence]. rewrite A. now apply (v_failed s ws cs I).
    - intros j Hj Ne. unfold size. rewrite upd_ne, Efd, Same by assumption. reflexivity.
    - unfold size. rewrite upd_eq, At. reflexivity.
  Qed.
  Definition goes (s s' : mix H) (ws : nat -> list N) (cs : nat -> nat) (i w : nat) : Prop :=
    exists ws' c, minv s' ws' (upd cs i c) /\ (forall j, j <= n -> j <> i -> size s' ws' (upd cs i c) j = size s ws cs j) /\
      (T -> size s' ws' (upd cs i c) i + w <= size s ws cs i) /\ exists rl, rstepsH (m_rd s) rl = Some (m_rd s').
  Lemma no_rd (r : rstate H) : exists rl, rstepsH r rl = Some r.
  Proof. now exists []. Qed.
  (** A byte goes into the pipe of item [i]. *)
  Lemma push_facts s ws cs i b w : minv s ws cs -> i <= n -> wl (item s i) = true -> ws i = b :: w ->
    let s1 := mpushH s (np + i) b in
    m_items s1 = m_items s /\ m_in s1 = m_in s /\ m_ok s1 = m_ok s /\ m_wr s1 = m_wr s /\ m_told s1 = m_told s /\ m_woken s1 = m_woken s /\
    r_wopen (m_rd s1) = r_wopen (m_rd s) /\ r_phase (m_rd s1) = r_phase (m_rd s) /\ r_out (m_rd s1) = r_out (m_rd s) /\ RI (m_rd s1) /\
    r_sent (m_rd s1) ++ upd ws i w n = out /\ (forall j, j <= n -> feed s1 (upd ws i w) j = feed s ws j) /\
    exists rl, rstepsH (m_rd s) rl = Some (m_rd s1).
  Proof.
    intros I Hi W Ew. cbv zeta. unfold mpush. destruct (Nat.eqb_spec (np + i) K) as [EK|NK].
    - assert (i = n) as -> by lia. assert (Wo : r_wopen (m_rd s) = true) by now rewrite (v_wopen s ws cs I).
      pose proof (rstep_feed H h_wants h_event h_next h_resume h_open _ b Wo) as RF. cbn [m_items m_in m_ok m_wr m_told m_woken m_rd].
      do 9 (split; [reflexivity|]). split; [eapply RI_step; [apply I|exact RF]|]. split.
      + cbn. rewrite upd_eq, <- app_assoc. cbn. rewrite <- Ew. apply I.
      + split; [|exists [LFeed [b]]; cbn [rsteps]; now rewrite RF]. intros [|j] Hj; [reflexivity|]. cbn. rewrite upd_ne by lia. reflexivity.
    - cbn [m_items m_in m_ok m_wr m_told m_woken m_rd]. do 9 (split; [reflexivity|]). split; [apply I|]. split.
      + rewrite upd_ne by lia. apply I.
      + split; [|apply no_rd]. intros [|j] Hj; [reflexivity|]. cbn. destruct (Nat.eqb_spec (np + j) (np + i)) as [E|E].
        * assert (j = i) as -> by lia. rewrite upd_eq, Ew, <- app_assoc. reflexivity.
        * rewrite upd_ne by lia. reflexivity.
  Qed.
  (** Some bytes are taken from the pipe in front of item [S j]. *)
  Lemma pop_facts s (ws : nat -> list N) j k : j < n -> k <= List.length (m_pipes s (np + j)) ->
    let s1 := mpopH s (np + j) k in
    m_items s1 = m_items s /\ m_in s1 = m_in s /\ m_ok s1 = m_ok s /\ m_wr s1 = m_wr s /\ m_told s1 = m_told s /\ m_woken s1 = m_woken s /\ m_rd s1 = m_rd s /\
    feed s1 ws (S j) = skipn k (feed s ws (S j)) /\ (forall i, i <= n -> i <> S j -> feed s1 ws i = feed s ws i).
  Proof.
    intros Hj Hk. cbv zeta. unfold mpop. rewrite K_ne by exact Hj. cbn [m_items m_in m_ok m_wr m_told m_woken m_rd]. do 7 (split; [reflexivity|]). split.
    - cbn. rewrite Nat.eqb_refl. rewrite skipn_app. f_equal. replace (k - List.length (m_pipes s (np + j))) with 0 by lia. reflexivity.
    - intros [|i] Hi Ne; [reflexivity|]. cbn. destruct (Nat.eqb_spec (np + i) (np + j)); [lia|reflexivity].
  Qed.
  Lemma content_ne (s : mix H) j : j < n -> mcontent H K s (np + j) = m_pipes s (np + j).
  Proof. intros Hj. unfold mcontent. now rewrite K_ne. Qed.
  (** Item [i] closes something. *)
  Lemma closes_facts s i st ok : List.length (m_items s) = S n -> i <= n -> r_wopen (m_rd s) = wl (item s n) -> RI (m_rd s) -> (wl st = true -> wl (item s i) = true) ->
    let s1 := closesH s i st ok in
    r_sent (m_rd s1) = r_sent (m_rd s) /\ r_phase (m_rd s1) = r_phase (m_rd s) /\ r_out (m_rd s1) = r_out (m_rd s) /\
    r_wopen (m_rd s1) = (if Nat.eqb n i then wl st else wl (item s n)) /\ RI (m_rd s1) /\ exists rl, rstepsH (m_rd s) rl = Some (m_rd s1).
  Proof.
    intros L Hi Wo R Mw. cbv zeta. unfold item_closes. cbn [m_rd]. rewrite w_left_spec by lia.
    assert (E : nth n (set_nth (m_items s) i st) (SProc None) = if Nat.eqb n i then st else item s n) by (apply nth_set_nth; lia). rewrite E.
    split; [reflexivity|]. split; [reflexivity|]. split; [reflexivity|]. cbn [r_wopen].
    assert (E2 : r_wopen (m_rd s) && wl (if Nat.eqb n i then st else item s n) = if Nat.eqb n i then wl st else wl (item s n)).
    { rewrite Wo. destruct (Nat.eqb_spec n i) as [->|Ne]; [|now rewrite andb_diag]. destruct (wl st); [now rewrite Mw|now rewrite andb_false_r]. }
    rewrite E2. split; [reflexivity|]. destruct (Bool.bool_dec (if Nat.eqb n i then wl st else wl (item s n)) (r_wopen (m_rd s))) as [Es|Ed].
    - rewrite Es. destruct (m_rd s) as [a b c d e f]. cbn. split; [exact R|apply no_rd].
    - assert (W1 : r_wopen (m_rd s) = true) by (rewrite <- E2 in Ed; destruct (r_wopen (m_rd s)); [reflexivity|cbn in Ed; congruence]).
      assert (W2 : (if Nat.eqb n i then wl st else wl (item s n)) = false) by (rewrite W1 in Ed; now apply not_true_is_false). rewrite W2.
      pose proof (rstep_close H h_wants h_event h_next h_resume h_open _ W1) as RC. split; [eapply RI_step; [exact R|exact RC]|]. exists [LClose]. cbn [rsteps]. now rewrite RC.
  Qed.
  Lemma pend_none (s : mix H) i : m_wr s = None -> pend s i = [].
  Proof. intros E. unfold pend. now rewrite E. Qed.
  Lemma pend_proc s ws cs i p : minv s ws cs -> item s i = SProc p -> pend s i = [].
  Proof.
    intros I E. unfold pend. destruct (m_wr s) as [[[j k] rest]|] eqn:Ew; [|reflexivity]. destruct (Nat.eqb_spec j i) as [->|]; [|reflexivity].
    destruct (v_wr s ws cs I _ _ _ Ew) as (g & X & _). congruence.
  Qed.
  Lemma pend_eq (s s1 : mix H) i : m_wr s1 = m_wr s -> pend s1 i = pend s i.
  Proof. intros E. unfold pend. now rewrite E. Qed.
  Lemma proc_lt s ws cs i st : minv s ws cs -> item s i = st -> st <> SProc None -> i <= n.
  Proof. intros I E N. destruct (Nat.lt_ge_cases i (S n)) as [X|X]; [lia|]. rewrite nth_overflow in E by (rewrite (v_len s ws cs I); exact X). congruence. Qed.
  (** ** Steps of a process *)
  (** [s1]: without the byte read. *)
  Lemma inv_read_proc s ws cs i f s1 : minv s ws cs -> item s i = SProc (Some (Reads f)) ->
    m_items s1 = m_items s -> m_ok s1 = m_ok s -> m_wr s1 = m_wr s -> m_told s1 = m_told s -> m_woken s1 = m_woken s -> m_rd s1 = m_rd s ->
    m_in s1 = m_in s \/ see 0 0 <> None ->
    (forall j, j <= n -> j <> i -> feed s1 ws j = feed s ws j) -> feed s1 ws i = tl (feed s ws i) ->
    (T -> feed s ws i = [] -> forall j, i = S j -> wl (item s j) = false) ->
    goes s (item_is H s1 i (SProc (Some (f (hd_error (feed s ws i)))))) ws cs i 1.
  Proof.
    intros I Eq Ei Eo Ew Et Ek Er En Ef Eh Ee. pose proof (proc_lt s ws cs i _ I Eq ltac:(discriminate)) as Hi.
    assert (Wi : wl (item s i) = true) by now rewrite Eq.
    assert (G : exists c, (unread s i \/ (S c <= cs i /\ givesn c (f (hd_error (feed s ws i))) (tl (feed s ws i)) true (ws i) (Some (oks i))))).
    { destruct (v_live s ws cs I i Hi Wi) as [U|(o & A & B)]; [exists 0; now left|]. rewrite Eq in B. cbn in B. rewrite (pend_proc s ws cs i _ I Eq) in A. cbn in A. subst o.
      apply givesn_reads in B as (_ & c & (N1 & N2 & N3) & D). exists c. right. split; [|exact D]. apply N3. right. discriminate. }
    destruct G as (c & G). 
    destruct (inv_upd s ws cs i (SProc (Some (f (hd_error (feed s ws i))))) (item_is H s1 i (SProc (Some (f (hd_error (feed s ws i)))))) ws c I Hi) as (I' & S1 & S2); auto.
    - cbn. now rewrite Ei.
    - now rewrite Eq.
    - intros j Hj. now apply pend_eq.
    - now rewrite Eq.
    - intros _. destruct G as [U|[_ G]]; [now left|right]. exists (ws i). rewrite (pend_eq s) by exact Ew. rewrite (pend_proc s ws cs i _ I Eq). split; [reflexivity|].
      cbn. change (feed (item_is H s1 i _) ws i) with (feed s1 ws i). now rewrite Eh.
    - discriminate.
    - discriminate.
    - discriminate.
    - cbn. intros j k rest E. rewrite Ew in E. left. split; [|exact E]. intros ->. destruct (v_wr s ws cs I _ _ _ E) as (g & X & _). congruence.
    - cbn. rewrite Er. apply I.
    - cbn. rewrite Er, (v_wopen s ws cs I). destruct (Nat.eqb_spec n i) as [->|]; [now rewrite Eq|reflexivity].
    - cbn. intros X. destruct En as [->|Y]; [now apply I|contradiction].
    - cbn. rewrite Er. apply I.
    - cbn. now rewrite Er.
    - cbn. now rewrite Er.
    - intros HT j -> _. pose proof (v_all s ws cs I HT j Wi) as X. rewrite Eq in X. cbn [ireads left] in X |- *. change (feed (item_is H s1 (S j) _) ws (S j)) with (feed s1 ws (S j)). rewrite Eh.
      destruct X as [X|X]; [|now right]. apply reads_reads in X as [X|X]; [right; now apply (Ee HT X)|now left].
    - discriminate.
    - exists ws, c. split; [exact I'|]. split; [exact S1|]. split; [|cbn; rewrite Er; apply no_rd].
      intros HT. rewrite S2. destruct G as [U|[G _]]; [now apply (T_read s ws cs i I HT Wi) in U|]. unfold size. rewrite Eq. cbn. lia.
  Qed.
  Lemma inv_proc_goes s ws cs i p s' : minv s ws cs -> item s i = SProc (Some p) -> proc_goesH s i p = Some s' -> goes s s' ws cs i 1.
  Proof.
    intros I Eq. pose proof (proc_lt s ws cs i _ I Eq ltac:(discriminate)) as Hi. assert (Wi : wl (item s i) = true) by now rewrite Eq.
    pose proof (pend_proc s ws cs i _ I Eq) as Pi.
    assert (NW : forall j k rest, m_wr s = Some (j, k, rest) -> j <> i).
    { intros j k rest E ->. destruct (v_wr s ws cs I _ _ _ E) as (g & X & _). congruence. }
    unfold proc_goes. destruct p as [f|b f|ok].
    - destruct i as [|j].
      + (* from outside *)
        assert (In' : forall o, see 0 0 = Some o ->
          match m_in s with
          | b :: r => Some (item_is H (takes H s r) 0 (SProc (Some (f (Some b)))))
          | [] => Some (item_is H s 0 (SProc (Some (f None)))) end = Some s' -> goes s s' ws cs 0 1).
        { intros o Eo. destruct (m_in s) as [|b r] eqn:En; intros E; injection E as <-.
          - replace (f None) with (f (hd_error (feed s ws 0))) by (cbn; now rewrite En). apply inv_read_proc; auto; [cbn; now rewrite En|discriminate].
          - replace (f (Some b)) with (f (hd_error (feed s ws 0))) by (cbn; now rewrite En). apply inv_read_proc; auto; [right; congruence| |cbn; now rewrite En|discriminate].
            intros [|j] _ Hj; [lia|reflexivity]. }
        destruct (see 0 0) as [o|] eqn:E0.
        2: { intros E. injection E as <-. pose proof (v_in0 s ws cs I E0) as En. replace (f None) with (f (hd_error (feed s ws 0))) by (cbn; now rewrite En).
             apply inv_read_proc; auto; [cbn; now rewrite En|discriminate]. }
        destruct o as [?|k|?|? ?|?]; try exact (In' _ eq_refl).
        assert (Ek : k < np) by now apply Hin0. unfold ours. destruct (Nat.leb_spec np k); [lia|]. exact (In' _ eq_refl).
      + rewrite (HinS j) by lia. rewrite ours_np, content_ne by lia.
        destruct (m_pipes s (np + j)) as [|b r] eqn:En.
        * rewrite w_left_spec by lia. destruct (wl (item s j)) eqn:Ej; [discriminate|]. intros E. injection E as <-.
          destruct (v_dead s ws cs I j ltac:(lia) Ej) as [X|[_ X]]; [|rewrite Eq in X; discriminate].
          assert (Ef : feed s ws (S j) = []) by (cbn; now rewrite En, X).
          replace (f None) with (f (hd_error (feed s ws (S j)))) by now rewrite Ef. apply inv_read_proc; auto; [now rewrite Ef|].
          intros _ _ j' E. injection E as <-. exact Ej.
        * intros E. injection E as <-. destruct (pop_facts s ws j 1) as (A1 & A2 & A3 & A4 & A5 & A6 & A7 & A8 & A9); [lia|rewrite En; cbn; lia|].
          replace (f (Some b)) with (f (hd_error (feed s ws (S j)))) by (cbn; now rewrite En). apply inv_read_proc; auto.
          -- intros _ X. cbn in X. rewrite En in X. discriminate.
    - rewrite Hout by lia. rewrite ours_np, r_left_spec by lia. destruct (negb _) eqn:Er.
      + intros E. injection E as <-. apply negb_true_iff in Er. destruct (Nat.eqb_spec i n) as [->|Ne].
        { apply (RI_open _ (v_rd s ws cs I)) in Er. rewrite (v_wopen s ws cs I) in Er. congruence. }
        assert (U : unread s i) by (split; [lia|exact Er]).
        destruct (inv_upd s ws cs i (SProc (Some (f false))) (item_is H s i (SProc (Some (f false)))) ws (cs i) I Hi) as (I' & S1 & S2); auto; try discriminate.
        * now rewrite Eq.
        * now rewrite Eq.
        * intros j k rest E. left. split; [eapply NW; exact E|exact E].
        * cbn. apply I.
        * cbn. rewrite (v_wopen s ws cs I). destruct (Nat.eqb_spec n i); [congruence|reflexivity].
        * cbn. apply I.
        * cbn. apply I.
        * intros HT. now destruct (T_read s ws cs i I HT Wi).
        * exists ws, (cs i). split; [exact I'|]. split; [exact S1|]. split; [|apply no_rd]. intros HT. now destruct (T_read s ws cs i I HT Wi).
      + destruct (_ <? cap); [|discriminate]. intros E. injection E as <-. apply negb_false_iff in Er.
        assert (NU : ~ unread s i) by (intros [A B]; destruct (Nat.eqb_spec i n); [lia|congruence]).
        destruct (v_live s ws cs I i Hi Wi) as [U|(o & A & B)]; [contradiction|]. rewrite Eq in B. cbn in B. rewrite Pi in A. cbn in A. subst o.
        apply givesn_writes in B as [[_ X]|(c & w & X & Y & Z & W)]; [discriminate|].
        destruct (push_facts s ws cs i b w I Hi Wi Z) as (A1 & A2 & A3 & A4 & A5 & A6 & A7 & A8 & A9 & A10 & A11 & A12 & A13).
        destruct (inv_upd s ws cs i (SProc (Some (f true))) (item_is H (mpushH s (np + i) b) i (SProc (Some (f true)))) (upd ws i w) c I Hi) as (I' & S1 & S2); auto; try discriminate.
        * cbn. now rewrite A1.
        * now rewrite Eq.
        * intros j Hj. now apply upd_ne.
        * intros j Hj _. exact (A12 j Hj).
        * intros j Hj. now apply pend_eq.
        * now rewrite Eq.
        * intros _. right. exists w. rewrite upd_eq, (pend_eq s) by exact A4. rewrite Pi. split; [reflexivity|]. cbn.
          change (feed (item_is H (mpushH s (np + i) b) i _) (upd ws i w) i) with (feed (mpushH s (np + i) b) (upd ws i w) i). now rewrite A12.
        * cbn. intros j k rest E. rewrite A4 in E. left. split; [eapply NW; exact E|exact E].
        * cbn. rewrite A7, (v_wopen s ws cs I). destruct (Nat.eqb_spec n i) as [->|]; [now rewrite Eq|reflexivity].
        * cbn. rewrite A2. apply I.
        * intros HT j -> _. pose proof (v_all s ws cs I HT j Wi) as Q. rewrite Eq in Q. cbn [ireads left] in Q |- *.
          change (feed (item_is H (mpushH s (np + S j) b) (S j) _) (upd ws (S j) w) (S j)) with (feed (mpushH s (np + S j) b) (upd ws (S j) w) (S j)). rewrite A12 by lia.
          destruct Q as [Q|Q]; [left; now inversion Q|now right].
        * exists (upd ws i w), c. split; [exact I'|]. split; [exact S1|]. split; [|exact A13]. intros HT. rewrite S2. unfold size. rewrite Eq. cbn. lia.
    - intros E. injection E as <-.
      destruct (closes_facts s i (SProc None) ok (v_len _ _ _ I) Hi (v_wopen _ _ _ I) (v_rd _ _ _ I)) as (A1 & A2 & A3 & A4 & A5 & A6); [discriminate|].
      assert (Dd : ws i = [] \/ unread s i).
      { destruct (v_live s ws cs I i Hi Wi) as [U|(o & A & B)]; [now right|left]. rewrite Eq in B. cbn in B. apply givesn_exits in B as [-> _]. rewrite Pi in A. exact A. }
      destruct (inv_upd s ws cs i (SProc None) (closesH s i (SProc None) ok) ws 0 I Hi) as (I' & S1 & S2); auto; try discriminate.
      + now rewrite Eq.
      + intros j k rest E. left. split; [eapply NW; exact E|exact E].
      + rewrite A1. apply I.
      + cbn. apply I.
      + intros HT j -> _. pose proof (v_all s ws cs I HT j Wi) as Q. rewrite Eq in Q. destruct Q as [Q|Q]; [inversion Q|exact Q].
      + right. split; [exact Wi|]. split; [reflexivity|]. exists ok. split; [reflexivity|]. intros HT.
        destruct (v_live s ws cs I i Hi Wi) as [U|(o & A & B)]; [now apply (T_read s ws cs i I HT Wi) in U|]. rewrite Eq in B. cbn in B. apply givesn_exits in B as [_ [B|B]]; congruence.
      + exists ws, 0. split; [exact I'|]. split; [exact S1|]. split; [|exact A6]. intros HT. rewrite S2. cbn. unfold size. rewrite Eq. cbn.
        destruct (v_live s ws cs I i Hi Wi) as [U|(o & A & B)]; [now apply (T_read s ws cs i I HT Wi) in U|]. rewrite Eq in B. cbn in B. apply givesn_pos in B. lia.
  Qed.
  (** ** Steps of a function *)
  Lemma set_nth_same {A} (l : list A) d : forall i, set_nth l i (nth i l d) = l.
  Proof. induction l as [|y l IH]; intros [|i]; cbn; auto. now rewrite IH. Qed.
  (** It changes, and neither reads nor writes nor closes anything. *)
  Lemma inv_fun s ws cs i g g' c w : minv s ws cs -> item s i = SFun g -> m_wr s = None ->
    g_open g' = g_open g -> li_eof (g_in g') = li_eof (g_in g) -> li_open (g_in g') = li_open (g_in g) -> fun_ok i g' ->
    (g_open g = true -> unread s i \/ fruns T m c (g_code g') (left (SFun g') (feed s ws i)) (ws i) (oks i)) ->
    (T -> g_open g = true -> fasks (g_code g) (left (SFun g) (feed s ws i)) -> fasks (g_code g') (left (SFun g') (feed s ws i)) \/ li_eof (g_in g) = true) ->
    (T -> c + w <= cs i) ->
    goes s (item_is H s i (SFun g')) ws cs i w.
  Proof.
    intros I Eq Ew Eo Ee El Fo Lv As Sz. pose proof (proc_lt s ws cs i _ I Eq ltac:(discriminate)) as Hi.
    assert (NW : forall j k rest, m_wr (item_is H s i (SFun g')) = Some (j, k, rest) -> False) by (cbn; intros; congruence).
    destruct (inv_upd s ws cs i (SFun g') (item_is H s i (SFun g')) ws c I Hi) as (I' & S1 & S2); auto; try discriminate.
    - now rewrite Eq.
    - cbn. rewrite Eq, Eo. auto.
    - cbn. rewrite Eq, El. auto.
    - cbn. rewrite Eo. intros W. destruct (Lv W) as [X|X]; [now left|right]. exists (ws i). rewrite pend_none by exact Ew. split; [reflexivity|exact X].
    - cbn. rewrite Eo. intros W. apply (v_dead s ws cs I i Hi). now rewrite Eq.
    - intros g0 E. now injection E as <-.
    - intros g0 j E -> X. injection E as <-. rewrite Ee in X. eapply (v_eof s ws cs I); eauto.
    - intros j k rest X. now apply NW in X.
    - cbn. apply I.
    - cbn. rewrite (v_wopen s ws cs I). destruct (Nat.eqb_spec n i) as [->|]; [now rewrite Eq, Eo|reflexivity].
    - cbn. apply I.
    - cbn. apply I.
    - intros HT j -> W. cbn in W. rewrite Eo in W. pose proof (v_all s ws cs I HT j) as X. rewrite Eq in X. destruct (X W) as [Y|Y]; [|now right].
      destruct (As HT W Y) as [Z|Z]; [now left|right]. eapply (v_eof s ws cs I); eauto.
    - intros HT j -> W. cbn in W. rewrite Eo in W. pose proof (proc_lt s ws cs (S j) _ I Eq ltac:(discriminate)). apply (v_order s ws cs I HT j); [lia|]. now rewrite Eq.
    - left. split; [reflexivity|]. rewrite Eq. exact Eo.
    - exists ws, c. split; [exact I'|]. split; [exact S1|]. split; [|apply no_rd]. intros HT. rewrite S2. unfold size. rewrite Eq. cbn [more]. rewrite Ee.
      change (feed (item_is H s i (SFun g')) ws i) with (feed s ws i). specialize (Sz HT). lia.
  Qed.
  Lemma fun_ahead s ws cs i g : minv s ws cs -> item s i = SFun g -> m_wr s = None -> g_open g = true ->
    unread s i \/ fruns T m (cs i) (g_code g) (left (SFun g) (feed s ws i)) (ws i) (oks i).
  Proof.
    intros I Eq Ew Eo. pose proof (proc_lt s ws cs i _ I Eq ltac:(discriminate)) as Hi. destruct (v_live s ws cs I i Hi) as [X|(o & A & B)]; [now rewrite Eq|now left|right].
    rewrite pend_none in A by exact Ew. cbn in A. subst o. rewrite Eq in B. exact B.
  Qed.
  Lemma inv_flags s ws cs i g ph t fl : minv s ws cs -> item s i = SFun g -> m_wr s = None -> g_phase g <> QWaiting -> ph <> QWaiting -> (ph = QOver -> g_phase g = QOver) ->
    goes s (with_flags H s i g ph t fl) ws cs i 0.
  Proof.
    intros I Eq Ew P1 P2 P3. pose proof (v_fun s ws cs I _ _ Eq) as F. apply (inv_fun s ws cs i g _ (cs i)); auto; try reflexivity.
    - constructor; cbn; [apply F|apply F|apply F|intros X; apply F; auto| |congruence]. rewrite (fo_fut _ _ F). destruct (g_phase g), ph; try reflexivity; congruence.
    - intros Eo. destruct (fun_ahead s ws cs i g I Eq Ew Eo); auto.
    - intros _. lia.
  Qed.
  Lemma inv_flags' s ws cs i g t fl : minv s ws cs -> item s i = SFun g -> m_wr s = None -> goes s (with_flags H s i g (g_phase g) t fl) ws cs i 0.
  Proof.
    intros I Eq Ew. pose proof (v_fun s ws cs I _ _ Eq) as F. apply (inv_fun s ws cs i g _ (cs i)); auto; try reflexivity.
    - constructor; cbn; apply F.
    - intros Eo. destruct (fun_ahead s ws cs i g I Eq Ew Eo); auto.
    - intros _. lia.
  Qed.
  (** Asking for the next line. *)
  Lemma ask_item b e l r fd : line_next (mkLine b e false (negb e)) = (mkLine r e false (negb e), NItem l) ->
    cut (b ++ (if e then [] else fd)) = Some (l, r ++ (if e then [] else fd)).
  Proof.
    unfold line_next. cbn [li_buf li_eof li_open li_fut]. destruct (has_nl b) eqn:Eb.
    - rewrite andb_false_r. destruct b as [|a b]; [discriminate|]. intros E. destruct (split1 (a :: b)) as [l0 r0] eqn:Es. injection E as -> ->. rewrite cut_more by exact Eb. now rewrite Es.
    - destruct e; cbn [negb andb]; [|discriminate]. destruct b as [|a b]; [discriminate|]. intros E. destruct (split1 ((a :: b) ++ [nl])) as [l0 r0] eqn:Es. injection E as -> ->. rewrite !app_nil_r.
      unfold cut. now rewrite Eb, Es.
  Qed.
  Lemma ask_facts h : li_fut h = false -> li_open h = negb (li_eof h) ->
    match line_next h with
    | (h', NWait) => h' = mkLine (li_buf h) (li_eof h) true (li_open h) /\ li_eof h = false /\ has_nl (li_buf h) = false
    | (h', NItem l) => exists r, h' = mkLine r (li_eof h) false (li_open h) /\ forall fd, cut (li_buf h ++ (if li_eof h then [] else fd)) = Some (l, r ++ (if li_eof h then [] else fd))
    | (h', NEof) => h' = h /\ li_eof h = true /\ li_buf h = []
    end.
  Proof.
    destruct h as [b e f o]. cbn [li_fut li_open li_eof li_buf]. intros -> ->. destruct (line_next (mkLine b e false (negb e))) as [h' o'] eqn:E.
    assert (X := E). unfold line_next in X. cbn [li_buf li_eof li_open li_fut] in X. destruct (negb e && negb (has_nl b)) eqn:Ec.
    - injection X as <- <-. apply andb_prop in Ec as [A B]. apply negb_true_iff in A, B. auto.
    - destruct b as [|a b].
      + injection X as <- <-. destruct e; [auto|discriminate].
      + destruct (split1 _) as [l r]. injection X as <- <-. exists r. split; [reflexivity|]. intros fd. eapply ask_item. exact E.
  Qed.
  Definition run_weight (st st' : istate) : nat :=
    match st, st' with SFun g, SFun g' => if g_open g then match g_phase g' with QWaiting => 0 | _ => 1 end else 0 | _, _ => 0 end.
  Lemma inv_fun_runs s ws cs i g s' : minv s ws cs -> item s i = SFun g -> m_wr s = None -> fun_runs H h_open fds sees shell x K s i g = Some s' ->
    goes s s' ws cs i (run_weight (SFun g) (item s' i)).
  Proof.
    intros I Eq Ew. pose proof (proc_lt s ws cs i _ I Eq ltac:(discriminate)) as Hi. pose proof (v_fun s ws cs I _ _ Eq) as F.
    assert (Hil : i < List.length (m_items s)) by (rewrite (v_len s ws cs I); lia).
    assert (At : forall st, item (item_is H s i st) i = st) by (intros st; cbn; now rewrite nth_set_nth, Nat.eqb_refl).
    pose proof (fun_ahead s ws cs i g I Eq Ew) as Ah.
    unfold fun_runs. destruct (g_phase g) eqn:Ep; try discriminate. destruct (g_code g) as [k|v k|e] eqn:Ec.
    - pose proof (ask_facts (g_in g)) as Af. rewrite (fo_fut _ _ F), Ep in Af. specialize (Af eq_refl (fo_open _ _ F)).
      destruct (line_next (g_in g)) as [h' [| |l]]; intros E; injection E as <-; rewrite At.
      + destruct Af as (-> & E1 & E2). cbn [run_weight g_phase]. replace (if g_open g then 0 else 0) with 0 by now destruct (g_open g).
        apply (inv_fun s ws cs i g _ (cs i)); auto; try reflexivity.
        * constructor; cbn; [apply F|apply F|apply F|discriminate|reflexivity|auto].
        * intros _ _ X. left. rewrite Ec in X. exact X.
        * intros _. lia.
      + destruct Af as (-> & E1 & E2). cbn [run_weight g_phase].
        assert (G : exists c, (g_open g = true -> unread s i \/ fruns T m c (k None) (left (SFun g) (feed s ws i)) (ws i) (oks i)) /\ (T -> c + (if g_open g then 1 else 0) <= cs i)).
        { destruct (g_open g) eqn:Eo; [|exists (cs i); split; [discriminate|lia]]. destruct (Ah eq_refl) as [U|D]; [exists 0; split; [auto|intros HT; exfalso; apply (T_read s ws cs i I HT); [rewrite Eq; exact Eo|exact U]]|].
          apply fruns_ask in D as (c & X & Y). exists c. split; [|lia]. intros _. right. cbn [left] in Y |- *. rewrite E1, E2 in Y |- *. cbn in Y. exact Y. }
        destruct G as (c & G1 & G2). apply (inv_fun s ws cs i g _ c); auto; try reflexivity.
        constructor; cbn; [apply F|apply F|apply F|discriminate|now rewrite (fo_fut _ _ F), Ep|discriminate].
      + destruct Af as (r & -> & E2). cbn [run_weight g_phase].
        assert (G : exists c, (g_open g = true -> unread s i \/ fruns T m c (k (Some l)) (r ++ (if li_eof (g_in g) then [] else feed s ws i)) (ws i) (oks i)) /\ (T -> c + (if g_open g then 1 else 0) <= cs i)).
        { destruct (g_open g) eqn:Eo; [|exists (cs i); split; [discriminate|lia]]. destruct (Ah eq_refl) as [U|D]; [exists 0; split; [auto|intros HT; exfalso; apply (T_read s ws cs i I HT); [rewrite Eq; exact Eo|exact U]]|].
          apply fruns_ask in D as (c & X & Y). exists c. split; [|lia]. intros _. right. cbn [left] in Y. rewrite E2 in Y. exact Y. }
        destruct G as (c & G1 & G2). apply (inv_fun s ws cs i g _ c); auto; try reflexivity.
        * constructor; cbn; [apply F|apply F|apply F|discriminate|reflexivity|discriminate].
        * intros HT Eo X. left. cbn [left g_in g_code li_buf li_eof] in X |- *. rewrite Ec in X. apply fasks_ask in X. rewrite E2 in X. exact X.
    - assert (Fo : fun_ok i (mkFS k (g_in g) QIdle (g_tasks g) (g_flag g) (g_open g) (g_done g))).
      { constructor; cbn; [apply F|apply F|apply F|discriminate|now rewrite (fo_fut _ _ F), Ep|discriminate]. }
      assert (As : T -> g_open g = true -> fasks (g_code g) (left (SFun g) (feed s ws i)) -> fasks k (left (SFun g) (feed s ws i)) \/ li_eof (g_in g) = true).
      { intros _ _ X. left. rewrite Ec in X. now apply fasks_give in X. }
      destruct (g_open g) eqn:Eo.
      2: { intros E. assert (s' = item_is H s i (SFun (mkFS k (g_in g) QIdle (g_tasks g) (g_flag g) false (g_done g)))) as -> by (destruct v; congruence). rewrite At. cbn [run_weight]. rewrite Eo.
           apply (inv_fun s ws cs i g _ (cs i)); auto; try (cbn; congruence). intros _. lia. }
      destruct v as [b|]; intros E; injection E as <-.
      + (* os.write begins *)
        cbn [writes m_items]. replace (nth i (m_items (item_is H s i _)) (SProc None)) with (SFun (mkFS k (g_in g) QIdle (g_tasks g) (g_flag g) true (g_done g))) by (symmetry; apply At).
        cbn [run_weight g_phase]. rewrite Eo. set (g' := mkFS k (g_in g) QIdle (g_tasks g) (g_flag g) true (g_done g)) in *.
        set (s1 := writes H (item_is H s i (SFun g')) (Some (i, 0, b ++ [nl]))).
        assert (Pi : pend s1 i = b ++ [nl]) by (unfold pend, s1; cbn; now rewrite Nat.eqb_refl).
        assert (G : exists c, (unread s i \/ exists o, ws i = (b ++ [nl]) ++ o /\ fruns T m c k (left (SFun g) (feed s ws i)) o (oks i)) /\ (T -> c + 1 <= cs i)).
        { destruct (Ah eq_refl) as [U|D]; [exists 0; split; [auto|intros HT; exfalso; apply (T_read s ws cs i I HT); [rewrite Eq; exact Eo|exact U]]|].
          apply fruns_give in D as (c & o & X & Y & _ & Z). exists c. split; [|lia]. right. eauto. }
        destruct G as (c & G1 & G2).
        destruct (inv_upd s ws cs i (SFun g') s1 ws c I Hi) as (I' & S1 & S2); auto; try discriminate.
        * now rewrite Eq.
        * intros j Hj. unfold pend, s1. cbn. rewrite Ew. destruct (Nat.eqb_spec i j); [congruence|reflexivity].
        * now rewrite Eq.
        * now rewrite Eq.
        * intros _. destruct G1 as [U|(o & A & B)]; [now left|right]. exists o. rewrite Pi. split; [exact A|exact B].
        * intros g0 E. now injection E as <-.
        * intros g0 j E -> X. injection E as <-. eapply (v_eof s ws cs I); eauto.
        * intros j k0 rest X. right. cbn in X. injection X as <- _ _. split; [reflexivity|]. exists g'. auto.
        * cbn. apply I.
        * cbn. rewrite (v_wopen s ws cs I). destruct (Nat.eqb_spec n i) as [->|]; [rewrite Eq; exact Eo|reflexivity].
        * cbn. apply I.
        * cbn. apply I.
        * intros HT j -> _. pose proof (v_all s ws cs I HT j) as X. rewrite Eq in X. destruct (X Eo) as [Y|Y]; [|now right].
          destruct (As HT eq_refl Y) as [Z|Z]; [now left|right]. eapply (v_eof s ws cs I); eauto.
        * left. split; [reflexivity|]. now rewrite Eq.
        * exists ws, c. split; [exact I'|]. split; [exact S1|]. split; [|apply no_rd]. intros HT. rewrite S2. unfold size. rewrite Eq. cbn [more]. specialize (G2 HT).
          change (feed s1 ws i) with (feed s ws i). cbn [g' g_in]. lia.
      + rewrite At. cbn [run_weight g_phase]. rewrite Eo.
        assert (G : exists c, (unread s i \/ fruns T m c k (left (SFun g) (feed s ws i)) (ws i) (oks i)) /\ (T -> c + 1 <= cs i)).
        { destruct (Ah eq_refl) as [U|D]; [exists 0; split; [auto|intros HT; exfalso; apply (T_read s ws cs i I HT); [rewrite Eq; exact Eo|exact U]]|].
          apply fruns_none in D as (c & X & Z). exists c. split; [|lia]. auto. }
        destruct G as (c & G1 & G2). apply (inv_fun s ws cs i g _ c); auto; try (cbn; congruence).
    - (* the end *)
      intros E. injection E as <-. unfold fun_ends.
      set (g' := mkFS (g_code g) (g_in g) QOver (g_tasks g) false false (match g_done g with None => Some (match e with EStop => true | ERaise _ => false end) | d => d end)).
      set (ok := match g_done g with None => match e with EStop => true | ERaise _ => false end | Some _ => true end).
      assert (Fo : fun_ok i g').
      { constructor; cbn; [apply F|apply F|now destruct (g_done g)|reflexivity|now rewrite (fo_fut _ _ F), Ep|discriminate]. }
      destruct (closes_facts s i (SFun g') ok (v_len _ _ _ I) Hi (v_wopen _ _ _ I) (v_rd _ _ _ I)) as (A1 & A2 & A3 & A4 & A5 & A6); [discriminate|].
      assert (Hok : T -> g_open g = true -> ok = oks i).
      { intros HT Eo. unfold ok. pose proof (fo_done _ _ F) as X. rewrite Eo in X. destruct (g_done g); [discriminate|].
        destruct (Ah Eo) as [U|D]; [exfalso; apply (T_read s ws cs i I HT); [rewrite Eq; exact Eo|exact U]|]. apply fruns_end in D as [_ D]. now rewrite D. }
      replace (item (closesH s i (SFun g') ok) i) with (SFun g') by (cbn; now rewrite nth_set_nth, Nat.eqb_refl). cbn [run_weight g' g_phase].
      set (c := if g_open g then 0 else cs i).
      destruct (inv_upd s ws cs i (SFun g') (closesH s i (SFun g') ok) ws c I Hi) as (I' & S1 & S2); auto; try discriminate.
      + now rewrite Eq.
      + now rewrite Eq.
      + intros _. destruct (g_open g) eqn:Eo; [|apply (v_dead s ws cs I i Hi); now rewrite Eq]. destruct (Ah eq_refl) as [U|D]; [now right|]. apply fruns_end in D as [D _]. now left.
      + intros g0 E. now injection E as <-.
      + intros g0 j E -> X. injection E as <-. eapply (v_eof s ws cs I); eauto.
      + cbn. intros; congruence.
      + rewrite A1. apply I.
      + cbn. apply I.
      + intros HT j -> _. destruct (g_open g) eqn:Eo.
        * pose proof (v_all s ws cs I HT j) as X. rewrite Eq in X. destruct (X Eo) as [Y|Y]; [|exact Y]. cbn [ireads] in Y. rewrite Ec in Y. now apply fasks_end in Y.
        * apply (v_order s ws cs I HT j); [lia|]. now rewrite Eq.
      + destruct (g_open g) eqn:Eo.
        * right. rewrite Eq. split; [exact Eo|]. split; [reflexivity|]. exists ok. split; [reflexivity|]. intros HT. now apply Hok.
        * left. rewrite Eq. split; [|exact (eq_sym Eo)]. cbn. unfold ok. pose proof (fo_done _ _ F) as X. rewrite Eo in X. destruct (g_done g); [apply andb_true_r|discriminate].
      + exists ws, c. split; [exact I'|]. split; [exact S1|]. split; [|exact A6]. intros HT. rewrite S2. unfold size. rewrite Eq. cbn [more g' g_in]. unfold c.
        change (feed (closesH s i (SFun g') ok) ws i) with (feed s ws i). destruct (g_open g) eqn:Eo; [|lia].
        destruct (Ah eq_refl) as [U|D]; [exfalso; apply (T_read s ws cs i I HT); [rewrite Eq; exact Eo|exact U]|]. apply fruns_pos in D. lia.
  Qed.
  Lemma inv_fun_reads s ws cs i g c0 s' : minv s ws cs -> item s i = SFun g -> m_wr s = None -> fun_reads H h_open fds sees shell x K s i g c0 = Some s' -> goes s s' ws cs i 1.
  Proof.
    intros I Eq Ew. pose proof (proc_lt s ws cs i _ I Eq ltac:(discriminate)) as Hi. pose proof (v_fun s ws cs I _ _ Eq) as F.
    unfold fun_reads. destruct i as [|j].
    { rewrite (fo_open _ _ F), (fo_first _ _ F eq_refl). cbn [negb andb]. destruct (see 0 0) as [[ | | | | ]|]; discriminate. }
    rewrite HinS, content_ne, w_left_spec by lia. destruct (_ && _ && _) eqn:G; [|discriminate]. apply andb_prop in G as [G G3]. apply andb_prop in G as [G1 G2].
    unfold line_event. rewrite G2. set (d := firstn c0 (m_pipes s (np + j))). intros E. injection E as E.
    pose proof (fo_open _ _ F) as Oe. rewrite G1 in Oe. symmetry in Oe. apply negb_true_iff in Oe.
    assert (Hc : c0 <= List.length (m_pipes s (np + j))).
    { destruct (m_pipes s (np + j)); [apply andb_prop in G3 as [_ G3]; apply Nat.eqb_eq in G3; subst; cbn; lia|]. apply andb_prop in G3 as [_ G3]. now apply Nat.leb_le in G3. }
    set (z := match d with [] => true | _ => false end) in E.
    assert (Z : z = true -> wl (item s j) = false /\ feed s ws (S j) = []).
    { unfold z, d. destruct (m_pipes s (np + j)) as [|b r] eqn:En.
      - intros _. apply andb_prop in G3 as [G3 _]. apply negb_true_iff in G3. split; [exact G3|]. cbn. rewrite En. destruct (v_dead s ws cs I j ltac:(lia) G3) as [->|[_ U]]; [reflexivity|]. rewrite Eq in U. cbn in U. congruence.
      - apply andb_prop in G3 as [G3 _]. apply andb_prop in G3 as [G3 _]. apply Nat.leb_le in G3. destruct c0; [lia|discriminate]. }
    assert (Zn : z = false -> 1 <= c0) by (unfold z, d; destruct c0; [discriminate|lia]).
    rewrite Oe, G1 in E. cbn [orb andb] in E.
    set (g' := mkFS (g_code g) (mkLine (li_buf (g_in g) ++ d) z false (negb z)) (if li_fut (g_in g) then QWoken else g_phase g) (g_tasks g) (g_flag g) (g_open g) (g_done g)) in E.
    destruct (pop_facts s ws j c0) as (A1 & A2 & A3 & A4 & A5 & A6 & A7 & A8 & A9); [lia|exact Hc|]. set (s0 := mpopH s (np + j) c0) in *.
    destruct (closes_facts s0 (S j) (SFun g') true) as (B1 & B2 & B3 & B4 & B5 & B6).
    { rewrite A1. apply I. } { exact Hi. } { rewrite A7, A1. apply I. } { rewrite A7. apply I. } { rewrite A1, Eq. auto. }
    rewrite A1 in B4. rewrite A7 in B1, B2, B3, B6.
    assert (Lf : left (SFun g') (skipn c0 (feed s ws (S j))) = left (SFun g) (feed s ws (S j))).
    { cbn [left g_in li_buf li_eof g']. rewrite Oe. destruct z eqn:Ez.
      - destruct (Z eq_refl) as [_ Z2]. rewrite Z2. unfold z in Ez. destruct d; [|discriminate]. now rewrite !app_nil_r.
      - rewrite <- app_assoc. f_equal. unfold d. cbn [feed]. rewrite skipn_app. replace (c0 - _) with 0 by lia. cbn [skipn]. rewrite app_assoc. now rewrite firstn_skipn. }
    assert (Fd : feed s' ws (S j) = skipn c0 (feed s ws (S j))) by (subst s'; exact A8).
    destruct (inv_upd s ws cs (S j) (SFun g') s' ws (cs (S j)) I Hi) as (I' & S1 & S2); subst s'; auto; try discriminate.
    - cbn. now rewrite A1.
    - now rewrite Eq.
    - intros j0 _. apply pend_eq. exact A4.
    - rewrite Eq. auto.
    - cbn. rewrite Eq. auto.
    - intros W. destruct (v_live s ws cs I (S j) Hi) as [U|(o & X & Y)]; [now rewrite Eq|now left|right]. exists o. rewrite (pend_eq s) by exact A4. split; [exact X|].
      rewrite Fd, Lf. rewrite Eq in Y. exact Y.
    - intros W. apply (v_dead s ws cs I (S j) Hi). now rewrite Eq.
    - intros g0 E. injection E as <-. constructor; cbn; auto; try discriminate.
      + apply F.
      + destruct (li_fut (g_in g)); [discriminate|apply F].
      + rewrite (fo_fut _ _ F). now destruct (g_phase g).
      + rewrite (fo_fut _ _ F). destruct (g_phase g); discriminate.
    - intros g0 j0 E Ej. injection E as <-. injection Ej as <-. cbn. intros X. now apply Z.
    - cbn. rewrite A4, Ew. discriminate.
    - rewrite B1. apply I.
    - cbn. rewrite A2. apply I.
    - intros HT j0 Ej W. injection Ej as <-. rewrite Fd, Lf. pose proof (v_all s ws cs I HT j) as X. rewrite Eq in X. exact (X W).
    - intros HT j0 Ej W. injection Ej as <-. apply (v_order s ws cs I HT j); [lia|]. now rewrite Eq.
    - left. split; [cbn; rewrite A3; apply andb_true_r|now rewrite Eq].
    - exists ws, (cs (S j)). split; [exact I'|]. split; [exact S1|]. split; [|exact B6]. intros HT. rewrite S2, Fd. unfold size. rewrite Eq. cbn [more g' g_in li_eof]. rewrite Oe.
      destruct z eqn:Ez; [lia|]. pose proof (Zn eq_refl). rewrite skipn_length. enough (c0 <= List.length (feed s ws (S j))) by lia. cbn [feed]. rewrite app_length. lia.
  Qed.
  (** os.write is left. *)
  Lemma inv_written s ws cs i k rest : minv s ws cs -> m_wr s = Some (i, k, rest) -> rest = [] \/ unread s i -> goes s (writes H s None) ws cs i 0.
  Proof.
    intros I Ew Ru. destruct (v_wr s ws cs I _ _ _ Ew) as (g & Eq & Eo & Ep). pose proof (proc_lt s ws cs i _ I Eq ltac:(discriminate)) as Hi.
    assert (Wi : wl (item s i) = true) by (rewrite Eq; exact Eo).
    destruct (inv_upd s ws cs i (item s i) (writes H s None) ws (cs i) I Hi) as (I' & S1 & S2); auto; try discriminate.
    - cbn. now rewrite set_nth_same.
    - intros j Hj. unfold pend. cbn. rewrite Ew. destruct (Nat.eqb_spec i j); [congruence|reflexivity].
    - intros _. destruct Ru as [-> |U]; [|now left]. destruct (v_live s ws cs I i Hi Wi) as [U|(o & A & B)]; [now left|right]. exists o. split; [|exact B].
      rewrite A. unfold pend. cbn. rewrite Ew, Nat.eqb_refl. reflexivity.
    - congruence.
    - intros g0 E. now apply (v_fun s ws cs I).
    - intros g0 j E -> X. exact (v_eof s ws cs I j g0 E X).
    - apply I.
    - cbn. rewrite (v_wopen s ws cs I). destruct (Nat.eqb_spec n i) as [->|]; reflexivity.
    - cbn. apply I.
    - cbn. apply I.
    - intros HT j -> W. apply (v_all s ws cs I HT j W).
    - congruence.
    - exists ws, (cs i). split; [exact I'|]. split; [exact S1|]. split; [|apply no_rd]. intros HT. rewrite S2. unfold size. change (feed (writes H s None) ws i) with (feed s ws i). lia.
  Qed.
  Lemma inv_fun_pushes s ws cs i k rest g s' : minv s ws cs -> m_wr s = Some (i, k, rest) -> item s i = SFun g -> fun_pushes H h_open cap fds sees shell x K s i k rest g = Some s' -> goes s s' ws cs i 0.
  Proof.
    intros I Ew Eq. destruct (v_wr s ws cs I _ _ _ Ew) as (g0 & Eq0 & Eo & Ep). assert (g0 = g) as -> by congruence. clear Eq0.
    pose proof (proc_lt s ws cs i _ I Eq ltac:(discriminate)) as Hi. assert (Wi : wl (item s i) = true) by (rewrite Eq; exact Eo). pose proof (v_fun s ws cs I _ _ Eq) as F.
    assert (Pi : pend s i = rest) by (unfold pend; rewrite Ew, Nat.eqb_refl; reflexivity).
    unfold fun_pushes. rewrite Hout by lia. destruct rest as [|b r].
    { intros E. injection E as <-. eapply inv_written; eauto. }
    rewrite r_left_spec by lia. destruct (negb _) eqn:Er.
    - apply negb_true_iff in Er. destruct (Nat.eqb_spec i n) as [->|Ne].
      { apply (RI_open _ (v_rd s ws cs I)) in Er. rewrite (v_wopen s ws cs I) in Er. congruence. }
      assert (U : unread s i) by (split; [lia|exact Er]). destruct k as [|k]; intros E; injection E as <-; [|eapply inv_written; eauto].
      unfold fun_ends. pose proof (fo_done _ _ F) as Fd. rewrite Eo in Fd. destruct (g_done g) eqn:Ed; [discriminate|].
      set (g' := mkFS (g_code g) (g_in g) (g_phase g) (g_tasks g) false false (Some false)).
      destruct (closes_facts s i (SFun g') false (v_len _ _ _ I) Hi (v_wopen _ _ _ I) (v_rd _ _ _ I)) as (A1 & A2 & A3 & A4 & A5 & A6); [discriminate|].
      destruct (inv_upd s ws cs i (SFun g') (writes H (closesH s i (SFun g') false) None) ws (cs i) I Hi) as (I' & S1 & S2); auto; try discriminate.
      + now rewrite Eq.
      + intros j Hj. unfold pend. cbn. rewrite Ew. destruct (Nat.eqb_spec i j); [congruence|reflexivity].
      + now rewrite Eq.
      + intros g0 E. injection E as <-. constructor; cbn; auto; apply F.
      + intros g0 j E -> X. injection E as <-. eapply (v_eof s ws cs I); eauto.
      + change (r_sent (m_rd (writes H (closesH s i (SFun g') false) None))) with (r_sent (m_rd (closesH s i (SFun g') false))). rewrite A1. apply I.
      + cbn. apply I.
      + intros HT. now destruct (T_read s ws cs i I HT Wi).
      + right. split; [exact Wi|]. split; [reflexivity|]. exists false. split; [reflexivity|]. intros HT. now destruct (T_read s ws cs i I HT Wi).
      + exists ws, (cs i). split; [exact I'|]. split; [exact S1|]. split; [|exact A6]. intros HT. now destruct (T_read s ws cs i I HT Wi).
    - destruct (_ <? cap); [|discriminate]. intros E. injection E as <-. apply negb_false_iff in Er.
      assert (NU : ~ unread s i) by (intros [A B]; destruct (Nat.eqb_spec i n); [lia|congruence]).
      destruct (v_live s ws cs I i Hi Wi) as [U|(o & A & B)]; [contradiction|]. rewrite Pi in A.
      destruct (push_facts s ws cs i b (r ++ o) I Hi Wi A) as (A1 & A2 & A3 & A4 & A5 & A6 & A7 & A8 & A9 & A10 & A11 & A12 & A13).
      set (s1 := writes H (mpushH s (np + i) b) (Some (i, S k, r))).
      destruct (inv_upd s ws cs i (SFun g) s1 (upd ws i (r ++ o)) (cs i) I Hi) as (I' & S1 & S2); auto; try discriminate.
      + cbn. rewrite A1. rewrite <- Eq. now rewrite set_nth_same.
      + now rewrite Eq.
      + intros j Hj. now apply upd_ne.
      + intros j Hj _. exact (A12 j Hj).
      + intros j Hj. unfold pend. cbn. rewrite Ew. destruct (Nat.eqb_spec i j); [congruence|reflexivity].
      + rewrite Eq. auto.
      + intros _. right. exists o. rewrite upd_eq. unfold pend, s1. cbn [writes m_wr]. rewrite Nat.eqb_refl. split; [reflexivity|].
        change (feed (writes H (mpushH s (np + i) b) (Some (i, S k, r))) (upd ws i (r ++ o)) i) with (feed (mpushH s (np + i) b) (upd ws i (r ++ o)) i). rewrite A12 by exact Hi. rewrite Eq in B. exact B.
      + cbn. congruence.
      + intros g0 E. injection E as <-. exact F.
      + intros g0 j E -> X. injection E as <-. eapply (v_eof s ws cs I); eauto.
      + intros j k0 rest X. right. cbn in X. injection X as <- _ _. split; [reflexivity|]. exists g. auto.
      + cbn. rewrite A7, (v_wopen s ws cs I). destruct (Nat.eqb_spec n i) as [->|]; [now rewrite Eq|reflexivity].
      + cbn. rewrite A2. apply I.
      + intros HT j -> W. change (feed s1 (upd ws (S j) (r ++ o)) (S j)) with (feed (mpushH s (np + S j) b) (upd ws (S j) (r ++ o)) (S j)). rewrite A12 by exact Hi.
        pose proof (v_all s ws cs I HT j) as X. rewrite Eq in X. exact (X W).
      + cbn. congruence.
      + left. rewrite Eq. auto.
      + exists (upd ws i (r ++ o)), (cs i). split; [exact I'|]. split; [exact S1|]. split; [|exact A13]. intros HT. rewrite S2. unfold size. rewrite Eq.
        change (feed s1 (upd ws i (r ++ o)) i) with (feed (mpushH s (np + i) b) (upd ws i (r ++ o)) i). rewrite A12 by exact Hi. lia.
  Qed.
  (** ** Steps that change no item *)
  Lemma inv_rest its pi inn rd ok wr told wok rd' told' wok' ws cs : let s := mkM its pi inn rd ok wr told wok in let s' := mkM its pi inn rd' ok wr told' wok' in
    minv s ws cs -> r_sent rd' = r_sent rd -> r_wopen rd' = r_wopen rd -> RI rd' ->
    (forall i, told' i = true -> wl (item s i) = false) ->
    (T -> m_at_eof H rd' = true -> wok' = false -> exists i, i <= n /\ proc (item s i) = true /\ told' i = false) ->
    (ended (r_out rd') -> forall i, i <= n -> wl (item s i) = false) ->
    (In GStop (r_out rd') -> ok = true) -> (In GFailed (r_out rd') -> ok = false) ->
    minv s' ws cs.
  Proof.
    cbv zeta. intros I Es Ew R To Wk En St Fa. constructor; cbn [m_items m_rd m_ok m_told m_woken m_wr m_in m_pipes].
    - exact (v_len _ _ _ I).
    - exact (v_live _ _ _ I).
    - exact (v_dead _ _ _ I).
    - exact (v_fun _ _ _ I).
    - exact (v_eof _ _ _ I).
    - exact (v_wr _ _ _ I).
    - rewrite Es. exact (v_sent _ _ _ I).
    - rewrite Ew. exact (v_wopen _ _ _ I).
    - exact (v_in0 _ _ _ I).
    - exact R.
    - exact (v_all _ _ _ I).
    - exact (v_order _ _ _ I).
    - exact (v_ok1 _ _ _ I).
    - exact (v_ok2 _ _ _ I).
    - exact To.
    - exact Wk.
    - exact En.
    - exact St.
    - exact Fa.
  Qed.
  Lemma runs_spec (s : mix H) : mrunning H s = true <-> exists i, i < List.length (m_items s) /\ item_runs (m_told s i) (item s i) = true.
  Proof.
    unfold mrunning. rewrite existsb_exists. split.
    - intros (i & A & B). apply in_seq in A. exists i. split; [lia|exact B].
    - intros (i & A & B). exists i. split; [apply in_seq; lia|exact B].
  Qed.
  Lemma not_running s ws cs : minv s ws cs -> mrunning H s = false -> forall i, i <= n -> wl (item s i) = false.
  Proof.
    intros I R i Hi. assert (X : item_runs (m_told s i) (item s i) = false).
    { destruct (item_runs _ _) eqn:E; [|reflexivity]. rewrite <- R. symmetry. apply runs_spec. exists i. rewrite (v_len s ws cs I). split; [lia|exact E]. }
    unfold item_runs in X. destruct (item s i) as [p|g] eqn:E.
    - apply negb_false_iff in X. rewrite <- E. now apply (v_told s ws cs I).
    - pose proof (v_fun s ws cs I _ _ E) as F. cbn. rewrite (fo_done _ _ F). now destruct (g_done g).
  Qed.
  Lemma at_eof_shut s ws cs : minv s ws cs -> T -> m_at_eof H (m_rd s) = true -> forall i, i <= n -> wl (item s i) = false.
  Proof.
    intros I HT X i Hi. unfold m_at_eof in X. destruct (r_phase (m_rd s)) eqn:E; try discriminate. pose proof (RI_eof _ (v_rd s ws cs I) E) as W. rewrite (v_wopen s ws cs I) in W.
    assert (G : forall k, k <= n -> wl (item s (n - k)) = false).
    { induction k as [|k IH]; intros Hk; [now rewrite Nat.sub_0_r|]. apply (v_order s ws cs I HT); [lia|]. replace (S (n - S k)) with (n - k) by lia. apply IH. lia. }
    replace i with (n - (n - i)) by lia. apply G. lia.
  Qed.
  Lemma after_eof (r : rstate H) l r' : rstepH r l = Some r' -> match l with LAtEof _ | LFeed _ | LClose => True | _ => forall g, g = GStop \/ g = GFailed -> In g (r_out r') -> In g (r_out r) end.
  Proof.
    unfold rstep. destruct l as [d| |c| | |ok]; auto.
    - destruct (readable H h_open r); [|discriminate]. destruct (h_wants _); [destruct (read_ok H r c); [|discriminate]|]; destruct (h_event _ _) as [h w]; intros E; injection E as <-; auto.
    - destruct (r_phase r); try discriminate. intros E. injection E as <-. intros g G. now apply after_out.
    - destruct (r_phase r); try discriminate. intros E. injection E as <-. intros g G. now apply after_out.
  Qed.
  Lemma inv_rd s ws cs l r' : minv s ws cs -> match l with LFeed _ | LClose => False | LAtEof ok => mrunning H s = false /\ ok = m_ok s | _ => True end ->
    rstepH (m_rd s) l = Some r' -> minv (with_rd H s r') ws cs.
  Proof.
    intros I L E. assert (O : reader_only l) by (destruct l; cbn; auto). destruct (rstep_keeps H h_wants h_event h_next h_resume h_open _ _ _ O E) as [K1 K2].
    pose proof (after_eof _ _ _ E) as Af. unfold with_rd. destruct s as [its pi inn rd ok wr told wok]. cbn [m_items m_rd m_ok m_told m_woken m_wr m_in m_pipes] in *.
    apply (inv_rest its pi inn rd ok wr told wok); auto.
    - eapply RI_step; [exact (v_rd _ _ _ I)|exact E].
    - exact (v_told _ _ _ I).
    - intros HT A B. apply orb_false_iff in B as [B1 B2]. rewrite A in B2. cbn in B2. apply negb_false_iff in B2. exact (v_wake _ _ _ I HT B2 B1).
    - destruct l as [d| |c| | |ok']; try contradiction; try (intros [X|X]; apply (v_end _ _ _ I); [left|right]; now apply Af in X; auto).
      intros _. exact (not_running _ _ _ I (proj1 L)).
    - intros X. destruct l as [d| |c| | |ok']; try contradiction; try (apply (v_stop _ _ _ I); apply Af in X; auto).
      destruct L as [_ ->]. unfold rstep in E. destruct (r_phase rd); try discriminate. injection E as <-. cbn in X. apply in_app_iff in X as [X|[X|[]]]; [exact (v_stop _ _ _ I X)|]. now destruct ok.
    - intros X. destruct l as [d| |c| | |ok']; try contradiction; try (apply (v_failed _ _ _ I); apply Af in X; auto).
      destruct L as [_ ->]. unfold rstep in E. destruct (r_phase rd); try discriminate. injection E as <-. cbn in X. apply in_app_iff in X as [X|[X|[]]]; [exact (v_failed _ _ _ I X)|]. now destruct ok.
  Qed.
  Lemma inv_tell s ws cs i : minv s ws cs -> m_wr s = None ->
    match item s i with SProc p => match p with None => true | Some _ => false end | SFun g => match g_done g with Some true => true | _ => false end end = true ->
    minv (mkM (m_items s) (m_pipes s) (m_in s) (m_rd s) (m_ok s) None (fun j => Nat.eqb j i || m_told s j) true) ws cs.
  Proof.
    intros I Ew E. destruct s as [its pi inn rd ok wr told wok]. cbn [m_items m_rd m_ok m_told m_woken m_wr m_in m_pipes] in *. subst wr.
    apply (inv_rest its pi inn rd ok None told wok); auto; try apply I; try discriminate.
    intros j X. apply orb_prop in X as [X|X]; [|exact (v_told _ _ _ I j X)]. apply Nat.eqb_eq in X. subst j. cbn [m_items] in *.
    destruct (nth i its (SProc None)) as [[p|]|g] eqn:Ei; [discriminate|reflexivity|]. pose proof (v_fun _ _ _ I i g Ei) as F. cbn. rewrite (fo_done _ _ F). now destruct (g_done g).
  Qed.
  Lemma inv_check s ws cs : minv s ws cs -> m_wr s = None -> m_at_eof H (m_rd s) = true -> mrunning H s = true ->
    minv (mkM (m_items s) (m_pipes s) (m_in s) (m_rd s) (m_ok s) None (m_told s) false) ws cs.
  Proof.
    intros I Ew A R. assert (Wk : T -> exists i, i <= n /\ proc (item s i) = true /\ m_told s i = false).
    { intros HT. apply runs_spec in R as (i & Hi & Ri). rewrite (v_len s ws cs I) in Hi. exists i. split; [lia|]. pose proof (at_eof_shut s ws cs I HT A i ltac:(lia)) as W.
      unfold item_runs in Ri. destruct (item s i) as [p|g] eqn:Ei; [split; [reflexivity|now apply negb_true_iff]|].
      pose proof (v_fun _ _ _ I i g Ei) as F. cbn in W. rewrite (fo_done _ _ F) in W. destruct (g_done g); discriminate. }
    destruct s as [its pi inn rd ok wr told wok]. cbn [m_items m_rd m_ok m_told m_woken m_wr m_in m_pipes] in *. subst wr.
    apply (inv_rest its pi inn rd ok None told wok); auto; apply I.
  Qed.
  (** ** Every step *)
  Definition weight (s s' : mix H) (l : mlabel) : nat :=
    match l with MProc _ | MReadable _ _ => 1 | MRun i => run_weight (item s i) (item s' i) | _ => 0 end.
  Definition leads (s s' : mix H) ws cs ws' cs' (w : nat) : Prop :=
    minv s' ws' cs' /\ (T -> total (size s' ws' cs') n + w <= total (size s ws cs) n) /\ exists rl, rstepsH (m_rd s) rl = Some (m_rd s').
  Lemma total_le' f g k : (forall j, j <= k -> f j <= g j) -> total f k <= total g k.
  Proof. induction k as [|k IH]; intros X; cbn [total]; [apply X; lia|]. pose proof (X (S k) ltac:(lia)). assert (total f k <= total g k) by (apply IH; intros; apply X; lia). lia. Qed.
  Lemma total_at f g i w k : i <= k -> (forall j, j <= k -> j <> i -> f j = g j) -> f i + w <= g i -> total f k + w <= total g k.
  Proof.
    induction k as [|k IH]; intros Hi E L; cbn [total].
    - assert (i = 0) as -> by lia. exact L.
    - destruct (Nat.eq_dec i (S k)) as [->|Ne].
      + assert (total f k <= total g k) by (apply total_le'; intros j Hj; rewrite E by lia; lia). lia.
      + rewrite (E (S k)) by lia. assert (total f k + w <= total g k) by (apply IH; [lia|intros; apply E; lia|exact L]). lia.
  Qed.
  Lemma goes_leads s s' ws cs i w : i <= n -> goes s s' ws cs i w -> exists ws' cs', leads s s' ws cs ws' cs' w.
  Proof.
    intros Hi (ws' & c & I & A & B & C). exists ws', (upd cs i c). split; [exact I|]. split; [|exact C]. intros HT. apply total_at with (i := i); auto.
  Qed.
  Lemma same_leads s s' ws cs : minv s' ws cs -> m_items s' = m_items s -> m_pipes s' = m_pipes s -> m_in s' = m_in s -> (exists rl, rstepsH (m_rd s) rl = Some (m_rd s')) ->
    exists ws' cs', leads s s' ws cs ws' cs' 0.
  Proof.
    intros I A B D R. exists ws, cs. split; [exact I|]. split; [|exact R]. intros _. rewrite Nat.add_0_r. apply total_le'. intros j _. unfold size, feed. rewrite A, B, D. lia.
  Qed.
  Lemma inv_step s ws cs l s' : minv s ws cs -> mstepH s l = Some s' -> exists ws' cs', leads s s' ws cs ws' cs' (weight s s' l).
  Proof.
    intros I. unfold mstep. destruct l as [i|i c0|i|i|i|i|i| |i| |l].
    1: { destruct (item s i) as [[p|]|g] eqn:Ei; try discriminate. intros E. eapply goes_leads; [|eapply inv_proc_goes; eauto]. eapply proc_lt; [exact I|exact Ei|discriminate]. }
    all: destruct (m_wr s) as [[[i0 k0] rest]|] eqn:Ew; try discriminate.
    all: try (destruct (item s i0) as [p0|g0] eqn:Ei0; [discriminate|]; try discriminate).
    all: unfold loop_step; try discriminate.
    - destruct (item s i) as [p|g] eqn:Ei; [discriminate|]. intros E. eapply goes_leads; [|eapply inv_fun_reads; eauto]. eapply proc_lt; [exact I|exact Ei|discriminate].
    - destruct (item s i) as [p|g] eqn:Ei; [discriminate|]. destruct (see i 1) as [[| |k | |]|]; try discriminate. destruct (_ && _); [|discriminate]. intros E. injection E as <-.
      eapply goes_leads; [|eapply inv_flags'; eauto]. eapply proc_lt; [exact I|exact Ei|discriminate].
    - destruct (item s i) as [p|g] eqn:Ei; [discriminate|]. destruct (g_flag g); [|discriminate]. intros E. injection E as <-.
      eapply goes_leads; [|eapply inv_flags'; eauto]. eapply proc_lt; [exact I|exact Ei|discriminate].
    - destruct (item s i) as [p|g] eqn:Ei; [discriminate|]. destruct (g_tasks g); [discriminate|]. intros E. injection E as <-.
      eapply goes_leads; [eapply proc_lt; [exact I|exact Ei|discriminate]|]. destruct (g_phase g) eqn:Ep; try (rewrite <- Ep; now apply inv_flags').
      apply inv_flags; auto; try congruence.
    - cbn [weight]. destruct (item s i) as [p|g] eqn:Ei; [discriminate|]. intros E. eapply goes_leads; [|eapply inv_fun_runs; eauto]. eapply proc_lt; [exact I|exact Ei|discriminate].
    - destruct (item s i) as [p|g] eqn:Ei; [discriminate|]. destruct (g_phase g) eqn:Ep; try discriminate. intros E. injection E as <-.
      eapply goes_leads; [eapply proc_lt; [exact I|exact Ei|discriminate]|]. apply inv_flags; auto; congruence.
    - intros E. eapply goes_leads; [|eapply inv_fun_pushes; eauto]. eapply proc_lt; [exact I|exact Ei0|discriminate].
    - destruct (_ && _) eqn:G; [|discriminate]. intros E. injection E as <-. apply andb_prop in G as [_ G]. apply same_leads; auto; [now apply inv_tell|apply no_rd].
    - destruct (_ && _) eqn:G; [|discriminate]. intros E. injection E as <-. apply andb_prop in G as [G G2]. apply andb_prop in G as [G _]. apply same_leads; auto; [now apply inv_check|apply no_rd].
    - destruct (match l with LFeed _ | LClose => false | LAtEof ok => _ | _ => true end) eqn:G; [|discriminate]. destruct (rstepH (m_rd s) l) as [r'|] eqn:E; [|discriminate]. intros X. injection X as <-.
      apply same_leads; auto; [|exists [l]; cbn [rsteps with_rd m_rd]; now rewrite E]. eapply inv_rd; [exact I| |exact E].
      destruct l as [d| |c| | |ok]; try discriminate; auto. apply andb_prop in G as [G G2]. apply andb_prop in G as [_ G]. apply negb_true_iff in G. apply eqb_prop in G2. auto.
  Qed.
  Definition counts (l : mlabel) : bool := match l with MProc _ | MReadable _ _ => true | _ => false end.
  Lemma rsteps_more (r : rstate H) a r1 b r2 : rstepsH r a = Some r1 -> rstepsH r1 b = Some r2 -> rstepsH r (a ++ b) = Some r2.
  Proof. intros A B. rewrite (rsteps_app H h_wants h_event h_next h_resume h_open). now rewrite A. Qed.
  Lemma inv_steps ls : forall s ws cs s', minv s ws cs -> mstepsH s ls = Some s' -> exists ws' cs', leads s s' ws cs ws' cs' (List.length (filter counts ls)).
  Proof.
    induction ls as [|l ls IH]; intros s ws cs s' I; cbn [msteps].
    - intros E. injection E as <-. exists ws, cs. split; [exact I|]. split; [cbn; lia|apply no_rd].
    - destruct (mstepH s l) as [s1|] eqn:E1; [|discriminate]. intros E2. destruct (inv_step s ws cs l s1 I E1) as (ws1 & cs1 & I1 & L1 & r1 & R1).
      destruct (IH s1 ws1 cs1 s' I1 E2) as (ws2 & cs2 & I2 & L2 & r2 & R2). exists ws2, cs2. split; [exact I2|]. split; [|exists (r1 ++ r2); eapply rsteps_more; eauto].
      intros HT. specialize (L1 HT). specialize (L2 HT). cbn [filter]. destruct l; cbn [counts weight] in *; cbn [List.length]; lia.
  Qed.
  Lemma msteps_app a : forall (s : mix H) b, mstepsH s (a ++ b) = match mstepsH s a with Some s' => mstepsH s' b | None => None end.
  Proof. induction a as [|l a IH]; intros s b; cbn [msteps List.app]; [reflexivity|]. destruct (mstepH s l); [apply IH|reflexivity]. Qed.
  (** ** The beginning *)
  Definition code_ok (c : nat) (d : code) (inp o : list N) (ok : bool) : Prop :=
    match d with CProg p => givesn c p inp true o (Some ok) | CFun f => fruns T m c f inp o ok end.
  Lemma nth_combine {A B} (l : list A) (l' : list B) a b : forall i, List.length l = List.length l' -> nth i (combine l l') (a, b) = (nth i l a, nth i l' b).
  Proof. intros i E. now apply combine_nth. Qed.
  Lemma start_item h codes inp i : List.length codes = S n -> i <= n ->
    item (mix_start H sees h codes inp) i = item_start (nth i codes (CProg (Exits true))) (see i).
  Proof.
    intros L Hi. unfold mix_start. cbn [m_items]. set (F := fun cs : code * (nat -> option ofd) => item_start (fst cs) (snd cs)).
    rewrite (nth_indep _ _ (F (CProg (Exits true), fun _ => None))) by (rewrite map_length, combine_length, L, Hlen; lia).
    rewrite map_nth, combine_nth by (rewrite L, Hlen; reflexivity). reflexivity.
  Qed.
  Lemma inv_start h codes inp ws cs : (see 0 0 = None -> inp = []) -> RI (r_init H h) -> List.length codes = S n ->
    (forall f, nth 0 codes (CProg (Exits true)) = CFun f -> see 0 0 = None) ->
    (forall i, i <= n -> code_ok (cs i) (nth i codes (CProg (Exits true))) (match i with 0 => inp | S j => ws j end) (ws i) (oks i)) ->
    (T -> forall j, j < n -> match nth (S j) codes (CProg (Exits true)) with CProg p => reads_all p (ws j) | CFun f => fasks f (ws j) end) ->
    ws n = out ->
    minv (mix_start H sees h codes inp) ws cs.
  Proof.
    intros I0 R L F0 Do Al Eo. set (s := mix_start H sees h codes inp).
    assert (It : forall i, i <= n -> item s i = item_start (nth i codes (CProg (Exits true))) (see i)) by (intros; now apply start_item).
    assert (Ln : List.length (m_items s) = S n) by (cbn; rewrite map_length, combine_length, L, Hlen; lia).
    assert (Wl : forall i, i <= n -> wl (item s i) = true) by (intros i Hi; rewrite It by exact Hi; now destruct (nth i codes _)).
    assert (Fe : forall i, feed s ws i = match i with 0 => inp | S j => ws j end) by (intros [|i]; reflexivity).
    assert (Si : forall i, i < n -> see (S i) 0 <> None) by (intros i Hi; rewrite HinS by exact Hi; discriminate).
    assert (Lf : forall i, i <= n -> left (item s i) (feed s ws i) = match i with 0 => inp | S j => ws j end).
    { intros i Hi. rewrite Fe, It by exact Hi. destruct (nth i codes _) as [p|f] eqn:Ec; [reflexivity|]. cbn [item_start left g_in]. destruct i as [|i].
      - rewrite (F0 f Ec). cbn. symmetry. apply I0. eapply F0. exact Ec.
      - specialize (Si i ltac:(lia)). destruct (see (S i) 0); [reflexivity|congruence]. }
    assert (Ov : forall i, n < i -> item s i = SProc None) by (intros i Hi; apply nth_overflow; lia).
    constructor; try (cbn; discriminate); auto.
    - intros i Hi W. right. exists (ws i). split; [reflexivity|]. rewrite Lf by exact Hi. specialize (Do i Hi). rewrite It by exact Hi. destruct (nth i codes _); exact Do.
    - intros i Hi W. rewrite Wl in W by exact Hi. discriminate.
    - intros i g E. destruct (Nat.le_gt_cases i n) as [Hi|Hi]; [|rewrite Ov in E by exact Hi; discriminate]. rewrite It in E by exact Hi. destruct (nth i codes _) as [p|f] eqn:Ec; [discriminate|]. injection E as <-.
      destruct i as [|i].
      + constructor; cbn; try discriminate; rewrite ?(F0 f Ec); auto.
      + specialize (Si i ltac:(lia)). destruct (see (S i) 0); [|congruence]. constructor; cbn; auto; discriminate.
    - intros j g E X. destruct (Nat.le_gt_cases (S j) n) as [Hi|Hi]; [|rewrite Ov in E by exact Hi; discriminate]. rewrite It in E by exact Hi. destruct (nth (S j) codes _) as [p|f] eqn:Ec; [discriminate|]. injection E as <-.
      specialize (Si j ltac:(lia)). destruct (see (S j) 0); [discriminate|congruence].
    - cbn. now rewrite Wl.
    - intros HT j W. destruct (Nat.le_gt_cases (S j) n) as [Hi|Hi]; [|rewrite Ov in W by exact Hi; discriminate]. left. rewrite Lf by exact Hi. specialize (Al HT j ltac:(lia)). rewrite It by exact Hi. destruct (nth (S j) codes _); exact Al.
    - intros HT j Hj W. rewrite Wl in W by lia. discriminate.
    - intros HT i Hi W. rewrite Wl in W by exact Hi. discriminate.
    - cbn. intros [[]|[]].
    - intros [].
  Qed.
  (** ** What the functions write fits into their pipes *)
  Hypothesis Hm : 3 * m <= pipe_buf.
  Hypothesis Hcap : pipe_buf <= cap.
  Hypothesis Hcap1 : 1 <= cap.
  Hypothesis HT : T.
  Definition load (g : fstate) : nat := g_tasks g + (if g_flag g then 1 else 0) + match g_phase g with QRunning | QWaiting | QWoken => 1 | _ => 0 end.
  Definition fits (s : mix H) : Prop := forall i g, i <= n -> item s i = SFun g -> g_open g = true ->
    List.length (mcontent H K s (np + i)) + List.length (pend s i) + m * load g <= cap.
  Lemma fits_upd (s s1 : mix H) i st' : List.length (m_items s) = S n -> i <= n -> fits s -> m_items s1 = set_nth (m_items s) i st' ->
    (forall j, j <= n -> j <> i -> List.length (mcontent H K s1 (np + j)) <= List.length (mcontent H K s (np + j)) /\ List.length (pend s1 j) <= List.length (pend s j)) ->
    (forall g, st' = SFun g -> g_open g = true -> List.length (mcontent H K s1 (np + i)) + List.length (pend s1 i) + m * load g <= cap) -> fits s1.
  Proof.
    intros L Hi Fi Ei Ot At j g Hj. rewrite Ei, nth_set_nth by lia. destruct (Nat.eqb_spec j i) as [->|Ne]; [apply At|]. intros E Eo. specialize (Fi j g Hj E Eo). destruct (Ot j Hj Ne). lia.
  Qed.
  Lemma fits_same (s s1 : mix H) : fits s -> m_items s1 = m_items s ->
    (forall j, j <= n -> List.length (mcontent H K s1 (np + j)) <= List.length (mcontent H K s (np + j)) /\ List.length (pend s1 j) <= List.length (pend s j)) -> fits s1.
  Proof. intros Fi Ei Ot j g Hj. rewrite Ei. intros E Eo. specialize (Fi j g Hj E Eo). destruct (Ot j Hj). lia. Qed.
  Lemma rstep_pend (r : rstate H) l r' : reader_only l -> rstepH r l = Some r' -> List.length (r_pend r') <= List.length (r_pend r).
  Proof.
    intros O. destruct l as [d| |c| | |ok]; cbn in O; try contradiction; unfold rstep.
    - destruct (readable H h_open r); [|discriminate]. destruct (h_wants _); [destruct (read_ok H r c); [|discriminate]|]; destruct (h_event _ _) as [h w]; intros E; injection E as <-; cbn; [rewrite skipn_length|]; lia.
    - destruct (r_phase r); try discriminate. intros E. injection E as <-. unfold after. destruct (h_next _) as [h []]; cbn; lia.
    - destruct (r_phase r); try discriminate. intros E. injection E as <-. unfold after. destruct (h_resume _) as [h []]; cbn; lia.
    - destruct (r_phase r); try discriminate. intros E. injection E as <-. cbn. lia.
  Qed.
  Lemma push_content (s : mix H) k b j : mcontent H K (mpushH s k b) j = if Nat.eqb j k then mcontent H K s k ++ [b] else mcontent H K s j.
  Proof.
    unfold mcontent, mpush. destruct (Nat.eqb_spec k K) as [->|Nk]; destruct (Nat.eqb_spec j K) as [->|Nj]; cbn; auto.
    destruct (Nat.eqb_spec K k); [congruence|reflexivity].
  Qed.
  Lemma pop_content (s : mix H) k c j : List.length (mcontent H K (mpopH s k c) j) <= List.length (mcontent H K s j).
  Proof.
    unfold mcontent, mpop. destruct (Nat.eqb_spec k K) as [->|Nk]; destruct (Nat.eqb_spec j K) as [->|Nj]; cbn; auto.
    - rewrite skipn_length. lia.
    - destruct (Nat.eqb_spec j k) as [->|]; [rewrite skipn_length|]; lia.
  Qed.
  Lemma pop_items (s : mix H) k c : m_items (mpopH s k c) = m_items s /\ m_wr (mpopH s k c) = m_wr s.
  Proof. unfold mpop. destruct (Nat.eqb k K); auto. Qed.
  Lemma push_items (s : mix H) k c : m_items (mpushH s k c) = m_items s /\ m_wr (mpushH s k c) = m_wr s.
  Proof. unfold mpush. destruct (Nat.eqb k K); auto. Qed.
  Lemma fits_proc s ws cs i p s' : minv s ws cs -> fits s -> item s i = SProc (Some p) -> proc_goesH s i p = Some s' -> fits s'.
  Proof.
    intros I Fi Eq. pose proof (proc_lt s ws cs i _ I Eq ltac:(discriminate)) as Hi. pose proof (v_len _ _ _ I) as L.
    assert (G0 : forall s1 q, m_items s1 = m_items s -> m_wr s1 = m_wr s -> (forall j, j <= n -> j <> i -> List.length (mcontent H K s1 (np + j)) <= List.length (mcontent H K s (np + j))) -> fits (item_is H s1 i (SProc q))).
    { intros s1 q A B D. apply (fits_upd s _ i (SProc q)); auto; [cbn; now rewrite A| |discriminate]. intros j Hj Ne. split; [exact (D j Hj Ne)|]. rewrite (pend_eq s); auto. }
    assert (G1 : forall k c q, fits (item_is H (mpopH s k c) i (SProc q))).
    { intros k c q. destruct (pop_items s k c). apply G0; auto. intros. apply pop_content. }
    unfold proc_goes. destruct p as [f|b f|ok].
    - destruct (see i 0) as [o|]; [|intros E; injection E as <-; now apply G0].
      destruct (match o with OPipeR k => if ours np k then Some k else None | _ => None end) as [k|].
      + destruct (mcontent H K s k) as [|b r]; [destruct (w_leftH (m_items s) (m_rd s) k); [discriminate|]|]; intros E; injection E as <-; [now apply G0|apply G1].
      + destruct (m_in s) as [|b r]; intros E; injection E as <-; now apply G0.
    - rewrite Hout by exact Hi. rewrite ours_np. destruct (negb _); [intros E; injection E as <-; now apply G0|]. destruct (_ <? cap); [|discriminate]. intros E. injection E as <-.
      destruct (push_items s (np + i) b). apply G0; auto. intros j Hj Ne. rewrite push_content. destruct (Nat.eqb_spec (np + j) (np + i)); [lia|]. lia.
    - intros E. injection E as <-. apply (fits_upd s _ i (SProc None)); auto; try discriminate.
  Qed.
  Lemma fits_flags s ws cs i g g' : minv s ws cs -> fits s -> item s i = SFun g -> (g_open g' = true -> g_open g = true /\ load g' <= load g) -> fits (item_is H s i (SFun g')).
  Proof.
    intros I Fi Eq Lo. pose proof (proc_lt s ws cs i _ I Eq ltac:(discriminate)) as Hi. pose proof (v_len _ _ _ I) as L.
    apply (fits_upd s _ i (SFun g')); auto. intros g0 E Eo. injection E as <-. destruct (Lo Eo) as [Eg Le]. specialize (Fi i g Hi Eq Eg).
    change (mcontent H K (item_is H s i (SFun g')) (np + i)) with (mcontent H K s (np + i)). change (pend (item_is H s i (SFun g')) i) with (pend s i). nia.
  Qed.
  Lemma fits_step s ws cs l s' : minv s ws cs -> fits s -> mstepH s l = Some s' -> fits s'.
  Proof.
    intros I Fi. pose proof (v_len _ _ _ I) as L. unfold mstep. destruct l as [i|i c0|i|i|i|i|i| |i| |l].
    1: { destruct (item s i) as [[p|]|g] eqn:Ei; try discriminate. eapply fits_proc; eauto. }
    all: destruct (m_wr s) as [[[i0 k0] rest]|] eqn:Ew; try discriminate.
    all: try (destruct (item s i0) as [p0|g0] eqn:Ei0; [discriminate|]; try discriminate).
    all: unfold loop_step; try discriminate.
    - (* MReadable *)
      destruct (item s i) as [p|g] eqn:Ei; [discriminate|]. pose proof (proc_lt s ws cs i _ I Ei ltac:(discriminate)) as Hi. pose proof (v_fun s ws cs I _ _ Ei) as F.
      unfold fun_reads. destruct (see i 0) as [[|k| | |]|]; try discriminate. destruct (_ && _ && _); [|discriminate]. unfold line_event. destruct (line_wants (g_in g)).
      + intros E. injection E as <-. eapply (fits_upd s _ i); [exact L|exact Hi|exact Fi|cbn; rewrite (proj1 (pop_items s k c0)); reflexivity| |].
        * intros j Hj Ne. split; [apply (pop_content s k c0)|]. rewrite (pend_eq s); [auto|]. exact (proj2 (pop_items s k c0)).
        * intros g0 E Eo. injection E as <-. cbn in Eo. specialize (Fi i g Hi Ei Eo).
          change (mcontent H K (closesH (mpopH s k c0) i ?st ?b) (np + i)) with (mcontent H K (mpopH s k c0) (np + i)).
          rewrite (pend_eq s) by exact (proj2 (pop_items s k c0)). pose proof (pop_content s k c0 (np + i)) as Pc. unfold load in *. cbn [g_tasks g_flag g_phase]. rewrite (fo_fut _ _ F).
          unfold mcontent in *. cbn [item_closes m_rd m_pipes r_pend] in *. destruct (g_phase g); lia.
      + intros E. injection E as <-. eapply (fits_upd s _ i); [exact L|exact Hi|exact Fi|cbn; rewrite (proj1 (pop_items s k c0)); reflexivity| |].
        * intros j Hj Ne. split; [apply (pop_content s k c0)|]. rewrite (pend_eq s); [auto|]. exact (proj2 (pop_items s k c0)).
        * intros g0 E Eo. injection E as <-. cbn in Eo. specialize (Fi i g Hi Ei Eo).
          rewrite (pend_eq s) by exact (proj2 (pop_items s k c0)). pose proof (pop_content s k c0 (np + i)) as Pc. unfold load in *. cbn [g_tasks g_flag g_phase].
          unfold mcontent in *. cbn [item_closes m_rd m_pipes r_pend] in *. destruct (g_phase g); lia.
    - (* MPoll *)
      destruct (item s i) as [p|g] eqn:Ei; [discriminate|]. pose proof (proc_lt s ws cs i _ I Ei ltac:(discriminate)) as Hi. rewrite Hout by exact Hi.
      destruct (_ && _) eqn:G; [|discriminate]. apply andb_prop in G as [G G4]. apply andb_prop in G as [G G3]. apply andb_prop in G as [G1 G2]. apply negb_true_iff in G2. apply Nat.leb_le in G3.
      intros E. injection E as <-. eapply (fits_upd s _ i); [exact L|exact Hi|exact Fi|reflexivity|intros; auto|]. intros g0 E Eo. injection E as <-.
      change (mcontent H K (with_flags H s i g (g_phase g) (g_tasks g) true) (np + i)) with (mcontent H K s (np + i)). rewrite pend_none by exact Ew. cbn [List.length].
      assert (load (mkFS (g_code g) (g_in g) (g_phase g) (g_tasks g) true (g_open g) (g_done g)) <= 3) by (unfold load; cbn [g_tasks g_flag g_phase]; destruct (g_phase g); lia).
      apply orb_prop in G4 as [G4|G4]; [apply Nat.leb_le in G4; nia|].
      exfalso. apply negb_true_iff in G4. rewrite r_left_spec in G4 by exact Hi. assert (W : wl (item s i) = true) by (rewrite Ei; exact G1). destruct (Nat.eqb_spec i n) as [->|Ne].
      + apply (RI_open _ (v_rd s ws cs I)) in G4. rewrite (v_wopen s ws cs I) in G4. congruence.
      + apply (T_read s ws cs i I HT W). split; [lia|exact G4].
    - destruct (item s i) as [p|g] eqn:Ei; [discriminate|]. destruct (g_flag g) eqn:Ef; [|discriminate]. intros E. injection E as <-. eapply fits_flags; eauto. cbn. intros Eo. split; [exact Eo|].
      unfold load. cbn [g_tasks g_flag g_phase]. rewrite Ef. lia.
    - destruct (item s i) as [p|g] eqn:Ei; [discriminate|]. destruct (g_tasks g) eqn:Ef; [discriminate|]. intros E. injection E as <-. eapply fits_flags; eauto. cbn. intros Eo. split; [exact Eo|].
      unfold load. cbn [g_tasks g_flag g_phase]. rewrite Ef. destruct (g_phase g); lia.
    - (* MRun *)
      destruct (item s i) as [p|g] eqn:Ei; [discriminate|]. pose proof (proc_lt s ws cs i _ I Ei ltac:(discriminate)) as Hi. unfold fun_runs. destruct (g_phase g) eqn:Ep; try discriminate.
      destruct (g_code g) as [k|v k|e] eqn:Ec.
      + destruct (line_next (g_in g)) as [h [| |b]]; intros E; injection E as <-; eapply fits_flags; eauto; cbn; intros Eo; (split; [exact Eo|]); unfold load; cbn [g_tasks g_flag g_phase]; rewrite Ep; lia.
      + assert (F1 : fits (item_is H s i (SFun (mkFS k (g_in g) QIdle (g_tasks g) (g_flag g) (g_open g) (g_done g))))).
        { eapply fits_flags; eauto. cbn. intros Eo. split; [exact Eo|]. unfold load. cbn [g_tasks g_flag g_phase]. rewrite Ep. lia. }
        destruct v as [b|]; [|intros E; injection E as <-; exact F1]. destruct (g_open g) eqn:Eo; [|intros E; injection E as <-; exact F1]. intros E. injection E as <-.
        destruct (fun_ahead s ws cs i g I Ei Ew Eo) as [U|D]; [exfalso; apply (T_read s ws cs i I HT); [rewrite Ei; exact Eo|exact U]|]. rewrite Ec in D. apply fruns_give in D as (c & o & _ & _ & Sh & _). specialize (Sh HT).
        eapply (fits_upd s _ i); [exact L|exact Hi|exact Fi|reflexivity| |].
        * intros j Hj Ne. split; [apply le_n|]. unfold pend. cbn. destruct (Nat.eqb_spec i j); [congruence|]. cbn. lia.
        * intros g0 E _. injection E as <-. specialize (Fi i g Hi Ei Eo). rewrite pend_none in Fi by exact Ew. unfold pend. cbn [writes m_wr]. rewrite Nat.eqb_refl, app_length. cbn [List.length] in *.
          unfold load in *. cbn [g_tasks g_flag g_phase]. rewrite Ep in Fi. change (mcontent H K (writes H (item_is H s i ?st) ?w) (np + i)) with (mcontent H K s (np + i)).
          unfold mcontent in *. cbn [writes item_is m_rd m_pipes] in *. lia.
      + intros E. injection E as <-. eapply (fits_upd s _ i); [exact L|exact Hi|exact Fi|reflexivity|intros; auto|]. intros g0 E X. injection E as <-. discriminate.
    - destruct (item s i) as [p|g] eqn:Ei; [discriminate|]. destruct (g_phase g) eqn:Ef; try discriminate. intros E. injection E as <-. eapply fits_flags; eauto. cbn. intros Eo. split; [exact Eo|].
      unfold load. cbn [g_tasks g_flag g_phase]. rewrite Ef. lia.
    - (* MPush *)
      pose proof (proc_lt s ws cs i0 _ I Ei0 ltac:(discriminate)) as Hi. destruct (v_wr s ws cs I _ _ _ Ew) as (g & Eq0 & Eo & Ep). assert (g0 = g) as -> by congruence. 
      assert (F1 : fits (writes H s None)) by (apply (fits_same s); auto; intros; split; [apply le_n|cbn; lia]).
      unfold fun_pushes. rewrite Hout by exact Hi. destruct rest as [|b r]; [intros E; injection E as <-; exact F1|].
      destruct (negb _) eqn:En.
      + exfalso. apply negb_true_iff in En. rewrite r_left_spec in En by exact Hi. assert (W : wl (item s i0) = true) by (rewrite Ei0; exact Eo). destruct (Nat.eqb_spec i0 n) as [->|Ne].
        * apply (RI_open _ (v_rd s ws cs I)) in En. rewrite (v_wopen s ws cs I) in En. congruence.
        * apply (T_read s ws cs i0 I HT W). split; [lia|exact En].
      + destruct (_ <? cap); [|discriminate]. intros E. injection E as <-. intros j g1 Hj. cbn [writes m_items]. rewrite (proj1 (push_items s (np + i0) b)). intros E1 E2. specialize (Fi j g1 Hj E1 E2).
        change (mcontent H K (writes H (mpushH s (np + i0) b) (Some (i0, S k0, r))) (np + j)) with (mcontent H K (mpushH s (np + i0) b) (np + j)). rewrite push_content.
        unfold pend in *. cbn [writes m_wr]. rewrite Ew in Fi. destruct (Nat.eqb_spec i0 j) as [->|Ne].
        * rewrite Nat.eqb_refl, app_length. cbn [List.length] in *. lia.
        * destruct (Nat.eqb_spec (np + j) (np + i0)); [lia|]. exact Fi.
    - destruct (_ && _) eqn:G; [|discriminate]. intros E. injection E as <-. apply (fits_same s); auto. intros j Hj. split; [apply le_n|]. cbn. lia.
    - destruct (_ && _) eqn:G; [|discriminate]. intros E. injection E as <-. apply (fits_same s); auto. intros j Hj. split; [apply le_n|]. cbn. lia.
    - destruct (match l with LFeed _ | LClose => false | LAtEof ok => _ | _ => true end) eqn:G; [|discriminate]. destruct (rstepH (m_rd s) l) as [r'|] eqn:E; [|discriminate]. intros X. injection X as <-.
      assert (O : reader_only l) by (destruct l; cbn; auto; discriminate). pose proof (rstep_pend _ _ _ O E) as Lp.
      apply (fits_same s); auto. intros j Hj. split; [|apply le_n]. unfold mcontent. cbn [with_rd m_rd m_pipes]. destruct (np + j =? K); lia.
  Qed.
  (** ** It goes on until the end *)
  Hypothesis D1 : forall r, RI r -> r_pend r <> [] -> exists r', drains H h_wants h_event h_next h_resume h_open r r' /\ List.length (r_pend r') < List.length (r_pend r).
  Hypothesis D2 : forall r, RI r -> r_pend r = [] -> r_wopen r = false -> exists r', drains H h_wants h_event h_next h_resume h_open r r' /\ r_phase r' = PAtEof.
  Definition reach (s : mix H) (ws : nat -> list N) cs (s' : mix H) (ws' : nat -> list N) cs' : Prop :=
    (exists ls, mstepsH s ls = Some s') /\ minv s' ws' cs' /\ fits s' /\ total (size s' ws' cs') n <= total (size s ws cs) n.
  Definition progress s ws cs : Prop := exists s' ws' cs', reach s ws cs s' ws' cs' /\ total (size s' ws' cs') n < total (size s ws cs) n.
  Lemma reach_refl s ws cs : minv s ws cs -> fits s -> reach s ws cs s ws cs.
  Proof. intros I F. split; [now exists []|]. auto. Qed.
  Lemma reach_trans s ws cs s1 ws1 cs1 s2 ws2 cs2 : reach s ws cs s1 ws1 cs1 -> reach s1 ws1 cs1 s2 ws2 cs2 -> reach s ws cs s2 ws2 cs2.
  Proof.
    intros ([l1 E1] & _ & _ & L1) ([l2 E2] & I2 & F2 & L2). split; [|split; [exact I2|split; [exact F2|lia]]]. exists (l1 ++ l2). now rewrite msteps_app, E1.
  Qed.
  Lemma reach_step s ws cs l s' : minv s ws cs -> fits s -> mstepH s l = Some s' ->
    exists ws' cs', reach s ws cs s' ws' cs' /\ total (size s' ws' cs') n + weight s s' l <= total (size s ws cs) n.
  Proof.
    intros I F E. destruct (inv_step s ws cs l s' I E) as (ws' & cs' & I' & L & _). specialize (L HT). exists ws', cs'. split; [|exact L].
    split; [exists [l]; cbn [msteps]; now rewrite E|]. split; [exact I'|]. split; [exact (fits_step s ws cs l s' I F E)|lia].
  Qed.
  Lemma progress_after s ws cs s1 ws1 cs1 : reach s ws cs s1 ws1 cs1 -> progress s1 ws1 cs1 -> progress s ws cs.
  Proof. intros R (s2 & ws2 & cs2 & R2 & L). exists s2, ws2, cs2. split; [eapply reach_trans; eauto|]. destruct R as (_ & _ & _ & X). lia. Qed.
  Lemma progress_step s ws cs l s' : minv s ws cs -> fits s -> mstepH s l = Some s' -> weight s s' l = 1 -> progress s ws cs.
  Proof. intros I F E W. destruct (reach_step s ws cs l s' I F E) as (ws' & cs' & R & L). rewrite W in L. exists s', ws', cs'. split; [exact R|lia]. Qed.

  Lemma read_there s ws cs i : minv s ws cs -> i <= n -> wl (item s i) = true -> r_leftH s (np + i) = true.
  Proof.
    intros I Hi W. rewrite r_left_spec by exact Hi. destruct (Nat.eqb_spec i n) as [->|Ne].
    - destruct (h_open _) eqn:E; [reflexivity|]. apply (RI_open _ (v_rd s ws cs I)) in E. rewrite (v_wopen s ws cs I) in E. congruence.
    - destruct (rl _) eqn:E; [reflexivity|]. exfalso. apply (T_read s ws cs i I HT W). split; [lia|exact E].
  Qed.
  (** os.write comes to an end. *)
  Lemma unblock rest : forall s ws cs i k, minv s ws cs -> fits s -> m_wr s = Some (i, k, rest) -> exists s' ws' cs', reach s ws cs s' ws' cs' /\ m_wr s' = None.
  Proof.
    induction rest as [|b r IH]; intros s ws cs i k I F Ew; destruct (v_wr s ws cs I _ _ _ Ew) as (g & Eq & Eo & Ep); pose proof (proc_lt s ws cs i _ I Eq ltac:(discriminate)) as Hi.
    - assert (E : mstepH s MPush = Some (writes H s None)) by (unfold mstep; rewrite Ew, Eq; unfold fun_pushes; now rewrite Hout).
      destruct (reach_step s ws cs _ _ I F E) as (ws' & cs' & R & _). exists (writes H s None), ws', cs'. auto.
    - assert (W : wl (item s i) = true) by (rewrite Eq; exact Eo). pose proof (F i g Hi Eq Eo) as Fi. unfold pend in Fi. rewrite Ew, Nat.eqb_refl in Fi. cbn [List.length] in Fi.
      assert (E : mstepH s MPush = Some (writes H (mpushH s (np + i) b) (Some (i, S k, r)))).
      { unfold mstep. rewrite Ew, Eq. unfold fun_pushes. rewrite Hout, (read_there s ws cs i I Hi W) by exact Hi. cbn [negb]. destruct (Nat.ltb_spec (List.length (mcontent H K s (np + i))) cap); [reflexivity|lia]. }
      destruct (reach_step s ws cs _ _ I F E) as (ws' & cs' & R & _). destruct R as (A & I' & F' & B).
      destruct (IH _ ws' cs' i (S k) I' F' eq_refl) as (s2 & ws2 & cs2 & R2 & N2). exists s2, ws2, cs2. split; [|exact N2]. eapply reach_trans; [|exact R2]. split; auto.
  Qed.
  (** What a step of a function that touches no pipe leaves. *)
  Definition quiet (s s' : mix H) : Prop := m_wr s' = None /\ m_pipes s' = m_pipes s /\ m_rd s' = m_rd s.
  Lemma quiet_content (s s' : mix H) k : quiet s s' -> mcontent H K s' k = mcontent H K s k.
  Proof. intros (_ & A & B). unfold mcontent. now rewrite A, B. Qed.
  Lemma wait_case i : (forall j, S j = i -> forall s ws cs, minv s ws cs -> fits s -> m_wr s = None -> mcontent H K s (np + j) = [] -> wl (item s j) = true -> progress s ws cs) ->
    forall s ws cs g, minv s ws cs -> fits s -> m_wr s = None -> item s i = SFun g -> g_phase g = QWaiting -> progress s ws cs.
  Proof.
    intros IH s ws cs g I F Ew Eq Ep. pose proof (proc_lt s ws cs i _ I Eq ltac:(discriminate)) as Hi. pose proof (v_fun s ws cs I _ _ Eq) as Fo. destruct (fo_wait _ _ Fo Ep) as [Ee En].
    destruct i as [|j]; [rewrite (fo_first _ _ Fo eq_refl) in Ee; discriminate|].
    assert (G : li_open (g_in g) && line_wants (g_in g) = true) by (rewrite (fo_open _ _ Fo), Ee; unfold line_wants; now rewrite En).
    assert (St : forall c, match m_pipes s (np + j) with [] => negb (wl (item s j)) && (c =? 0) | _ => (1 <=? c) && (c <=? 1024) && (c <=? List.length (m_pipes s (np + j))) end = true -> exists s', mstepH s (MReadable (S j) c) = Some s').
    { intros c Hc. unfold mstep, loop_step. rewrite Ew, Eq. unfold fun_reads. rewrite HinS, content_ne, w_left_spec, G by lia. rewrite Hc. cbn [andb]. destruct (line_event _ _) as [h w]. eauto. }
    destruct (m_pipes s (np + j)) as [|b r] eqn:Ec.
    - destruct (wl (item s j)) eqn:Wj; [apply (IH j eq_refl); auto; rewrite content_ne by lia; exact Ec|].
      destruct (St 0 eq_refl) as [s' E]. eapply progress_step; eauto.
    - destruct (St 1 eq_refl) as [s' E]. eapply progress_step; eauto.
  Qed.
  Lemma run_case s ws cs i g : minv s ws cs -> fits s -> m_wr s = None -> item s i = SFun g -> g_open g = true -> g_phase g = QRunning ->
    progress s ws cs \/ exists s' ws' cs' g', reach s ws cs s' ws' cs' /\ quiet s s' /\ item s' i = SFun g' /\ g_phase g' = QWaiting.
  Proof.
    intros I F Ew Eq Eo Ep. pose proof (proc_lt s ws cs i _ I Eq ltac:(discriminate)) as Hi. pose proof (v_len _ _ _ I) as L.
    assert (At : forall st, item (item_is H s i st) i = st) by (intros st; cbn; rewrite nth_set_nth, Nat.eqb_refl by lia; reflexivity).
    assert (E : mstepH s (MRun i) = fun_runs H h_open fds sees shell x K s i g) by (unfold mstep, loop_step; now rewrite Ew, Eq).
    unfold fun_runs in E. rewrite Ep in E. destruct (g_code g) as [k|v k|e].
    - destruct (line_next (g_in g)) as [h [| |b]].
      + right. destruct (reach_step s ws cs _ _ I F E) as (ws' & cs' & R & _). eexists _, ws', cs', _. split; [exact R|]. split; [repeat split; exact Ew|]. split; [apply At|reflexivity].
      + left. eapply progress_step; eauto. cbn [weight]. rewrite Eq, At. cbn. now rewrite Eo.
      + left. eapply progress_step; eauto. cbn [weight]. rewrite Eq, At. cbn. now rewrite Eo.
    - left. destruct v as [b|]; [rewrite Eo in E|]; (eapply progress_step; eauto; cbn [weight]; rewrite Eq).
      + cbn [writes m_items]. change (m_items (item_is H s i ?st)) with (set_nth (m_items s) i st). cbn [item_is m_items]. rewrite nth_set_nth, Nat.eqb_refl by lia. cbn. now rewrite Eo.
      + rewrite At. cbn. now rewrite Eo.
    - left. eapply progress_step; eauto. cbn [weight]. rewrite Eq. unfold fun_ends. cbn [item_closes m_items]. rewrite nth_set_nth, Nat.eqb_refl by lia. cbn. now rewrite Eo.
  Qed.
  Lemma flags_step s ws cs i g ph t fl l : minv s ws cs -> fits s -> m_wr s = None -> item s i = SFun g -> mstepH s l = Some (with_flags H s i g ph t fl) ->
    exists ws' cs', let s' := with_flags H s i g ph t fl in reach s ws cs s' ws' cs' /\ quiet s s' /\ item s' i = SFun (mkFS (g_code g) (g_in g) ph t fl (g_open g) (g_done g)).
  Proof.
    intros I F Ew Eq E. pose proof (proc_lt s ws cs i _ I Eq ltac:(discriminate)) as Hi. pose proof (v_len _ _ _ I) as L.
    destruct (reach_step s ws cs _ _ I F E) as (ws' & cs' & R & _). exists ws', cs'. split; [exact R|]. split; [repeat split; exact Ew|]. cbn. rewrite nth_set_nth, Nat.eqb_refl by lia. reflexivity.
  Qed.
  Lemma prog_at i : forall s ws cs, minv s ws cs -> fits s -> m_wr s = None -> mcontent H K s (np + i) = [] -> wl (item s i) = true -> progress s ws cs.
  Proof.
    induction i as [i IHi] using (well_founded_induction lt_wf). intros s ws cs I F Ew Ec W.
    assert (IHj : forall j, S j = i -> forall s ws cs, minv s ws cs -> fits s -> m_wr s = None -> mcontent H K s (np + j) = [] -> wl (item s j) = true -> progress s ws cs) by (intros j <-; apply IHi; lia).
    destruct (item s i) as [[p|]|g] eqn:Eq; [| discriminate |]; pose proof (proc_lt s ws cs i _ I Eq ltac:(discriminate)) as Hi.
    - assert (Wi : wl (item s i) = true) by now rewrite Eq.
      assert (St : (exists s', proc_goesH s i p = Some s') -> progress s ws cs).
      { intros [s' E]. eapply (progress_step s ws cs (MProc i) s'); auto. unfold mstep. now rewrite Eq. }
      unfold proc_goes in St. destruct p as [f|b f|ok].
      + destruct i as [|j].
        * apply St. destruct (see 0 0) as [o|] eqn:E0; [|eauto]. replace (match o with OPipeR k => if ours np k then Some k else None | _ => None end) with (@None nat); [destruct (m_in s); eauto|].
          destruct o as [?|k|?|? ?|?]; auto. assert (k < np) by now apply Hin0. unfold ours. destruct (Nat.leb_spec np k); [lia|reflexivity].
        * rewrite (HinS j) in St by lia. rewrite ours_np, content_ne, w_left_spec in St by lia. destruct (m_pipes s (np + j)) as [|b r] eqn:Ej; [|apply St; eauto].
          destruct (wl (item s j)) eqn:Wj; [|apply St; eauto]. apply (IHj j eq_refl); auto. rewrite content_ne by lia. exact Ej.
      + apply St. rewrite Hout by exact Hi. rewrite ours_np, (read_there s ws cs i I Hi Wi), Ec. cbn [negb List.length]. destruct (Nat.ltb_spec 0 cap); [eauto|lia].
      + apply St. eauto.
    - cbn in W. pose proof (v_fun s ws cs I _ _ Eq) as Fo.
      assert (Run : forall s ws cs g, minv s ws cs -> fits s -> m_wr s = None -> item s i = SFun g -> g_open g = true -> g_phase g = QRunning -> progress s ws cs).
      { intros s1 ws1 cs1 g1 I1 F1 Ew1 Eq1 Eo1 Ep1. destruct (run_case s1 ws1 cs1 i g1 I1 F1 Ew1 Eq1 Eo1 Ep1) as [P|(s2 & ws2 & cs2 & g2 & R & (Q & _) & Eq2 & Ep2)]; [exact P|].
        eapply progress_after; [exact R|]. destruct R as (_ & I2 & F2 & _). eapply (wait_case i IHj); eauto. }
      assert (Task : forall s ws cs g t, minv s ws cs -> fits s -> m_wr s = None -> item s i = SFun g -> g_open g = true -> g_phase g = QIdle -> g_tasks g = S t -> progress s ws cs).
      { intros s1 ws1 cs1 g1 t I1 F1 Ew1 Eq1 Eo1 Ep1 Et1. assert (E : mstepH s1 (MStart i) = Some (with_flags H s1 i g1 QRunning t (g_flag g1))) by (unfold mstep, loop_step; now rewrite Ew1, Eq1, Et1, Ep1).
        destruct (flags_step s1 ws1 cs1 i g1 _ _ _ _ I1 F1 Ew1 Eq1 E) as (ws2 & cs2 & R & (Q & _) & Eq2). eapply progress_after; [exact R|]. destruct R as (_ & I2 & F2 & _). eapply Run; [exact I2|exact F2|exact Q|exact Eq2|..]; cbn; auto. }
      assert (Flag : forall s ws cs g, minv s ws cs -> fits s -> m_wr s = None -> item s i = SFun g -> g_open g = true -> g_phase g = QIdle -> g_flag g = true -> progress s ws cs).
      { intros s1 ws1 cs1 g1 I1 F1 Ew1 Eq1 Eo1 Ep1 Et1. assert (E : mstepH s1 (MWritable i) = Some (with_flags H s1 i g1 (g_phase g1) (S (g_tasks g1)) false)) by (unfold mstep, loop_step; now rewrite Ew1, Eq1, Et1).
        destruct (flags_step s1 ws1 cs1 i g1 _ _ _ _ I1 F1 Ew1 Eq1 E) as (ws2 & cs2 & R & (Q & _) & Eq2). eapply progress_after; [exact R|]. destruct R as (_ & I2 & F2 & _). eapply Task; [exact I2|exact F2|exact Q|exact Eq2|..]; cbn; auto. }
      destruct (g_phase g) eqn:Ep.
      + destruct (g_tasks g) as [|t] eqn:Et; [|eapply Task; eauto]. destruct (g_flag g) eqn:Ef; [eapply Flag; eauto|].
        assert (E : mstepH s (MPoll i) = Some (with_flags H s i g (g_phase g) (g_tasks g) true)).
        { unfold mstep, loop_step. rewrite Ew, Eq, Hout, W, Ef, Et, Ec by exact Hi. cbn [negb andb Nat.leb List.length]. rewrite Nat.add_0_r. destruct (Nat.leb_spec pipe_buf cap); [reflexivity|lia]. }
        destruct (flags_step s ws cs i g _ _ _ _ I F Ew Eq E) as (ws2 & cs2 & R & (Q & _) & Eq2). eapply progress_after; [exact R|]. destruct R as (_ & I2 & F2 & _). eapply Flag; [exact I2|exact F2|exact Q|exact Eq2|..]; cbn; auto.
      + eapply Run; eauto.
      + eapply (wait_case i IHj); eauto.
      + assert (E : mstepH s (MWake i) = Some (with_flags H s i g QRunning (g_tasks g) (g_flag g))) by (unfold mstep, loop_step; now rewrite Ew, Eq, Ep).
        destruct (flags_step s ws cs i g _ _ _ _ I F Ew Eq E) as (ws2 & cs2 & R & (Q & _) & Eq2). eapply progress_after; [exact R|]. destruct R as (_ & I2 & F2 & _). eapply Run; [exact I2|exact F2|exact Q|exact Eq2|..]; cbn; auto.
      + rewrite (fo_over _ _ Fo Ep) in W. discriminate.
  Qed.
  (** The reader of the result. *)
  Lemma drain_mix s ws cs r' : minv s ws cs -> fits s -> m_wr s = None -> drains H h_wants h_event h_next h_resume h_open (m_rd s) r' ->
    exists s' ws' cs', reach s ws cs s' ws' cs' /\ m_wr s' = None /\ m_items s' = m_items s /\ m_rd s' = r'.
  Proof.
    intros I F Ew (rl & Fo & E). revert s ws cs I F Ew E. induction Fo as [|l rl O Fo IH]; intros s ws cs I F Ew; cbn [rsteps].
    - intros E. injection E as <-. exists s, ws, cs. split; [now apply reach_refl|]. auto.
    - destruct (rstepH (m_rd s) l) as [r1|] eqn:E1; [|discriminate]. intros E2.
      assert (S1 : mstepH s (MRd l) = Some (with_rd H s r1)).
      { unfold mstep, loop_step. rewrite Ew. destruct l; cbn in O; try contradiction; now rewrite E1. }
      destruct (reach_step s ws cs _ _ I F S1) as (ws1 & cs1 & R & _). pose proof R as (_ & I1 & F1 & _).
      destruct (IH (with_rd H s r1) ws1 cs1 I1 F1 Ew E2) as (s2 & ws2 & cs2 & R2 & A & B & C). exists s2, ws2, cs2. split; [eapply reach_trans; eauto|]. auto.
  Qed.
  Lemma empty_out k : forall s ws cs, minv s ws cs -> fits s -> m_wr s = None -> List.length (r_pend (m_rd s)) <= k ->
    exists s' ws' cs', reach s ws cs s' ws' cs' /\ m_wr s' = None /\ m_items s' = m_items s /\ r_pend (m_rd s') = [].
  Proof.
    induction k as [k IH] using (well_founded_induction lt_wf). intros s ws cs I F Ew Hk. destruct (r_pend (m_rd s)) as [|b r] eqn:Ep.
    - exists s, ws, cs. split; [now apply reach_refl|]. auto.
    - destruct (D1 _ (v_rd s ws cs I)) as (r' & Dr & Lt); [congruence|]. destruct (drain_mix s ws cs r' I F Ew Dr) as (s1 & ws1 & cs1 & R1 & A1 & B1 & C1).
      pose proof R1 as (_ & I1 & F1 & _). rewrite Ep in Lt. cbn [List.length] in Lt, Hk.
      destruct (IH (List.length (r_pend r')) ltac:(lia) s1 ws1 cs1 I1 F1 A1 ltac:(now rewrite C1)) as (s2 & ws2 & cs2 & R2 & A2 & B2 & C2). exists s2, ws2, cs2.
      split; [eapply reach_trans; eauto|]. split; [exact A2|]. split; [congruence|exact C2].
  Qed.
  Lemma unblocks s ws cs : minv s ws cs -> fits s -> exists s' ws' cs', reach s ws cs s' ws' cs' /\ m_wr s' = None.
  Proof.
    intros I F. destruct (m_wr s) as [[[i k] rest]|] eqn:Ew; [eapply unblock; eauto|]. exists s, ws, cs. split; [now apply reach_refl|exact Ew].
  Qed.
  Lemma to_the_end k : forall s ws cs, minv s ws cs -> fits s -> total (size s ws cs) n <= k -> exists s' ws' cs', reach s ws cs s' ws' cs' /\ m_wr s' = None /\ wl (item s' n) = false /\ r_pend (m_rd s') = [].
  Proof.
    induction k as [k IH] using (well_founded_induction lt_wf). intros s ws cs I F Hk.
    destruct (unblocks s ws cs I F) as (s1 & ws1 & cs1 & R1 & A1). pose proof R1 as (_ & I1 & F1 & L1).
    destruct (empty_out _ s1 ws1 cs1 I1 F1 A1 (le_n _)) as (s2 & ws2 & cs2 & R2 & A2 & B2 & C2). pose proof R2 as (_ & I2 & F2 & L2).
    destruct (wl (item s2 n)) eqn:W.
    - destruct (prog_at n s2 ws2 cs2 I2 F2 A2) as (s3 & ws3 & cs3 & R3 & L3); [unfold mcontent; now rewrite Nat.eqb_refl|exact W|]. pose proof R3 as (_ & I3 & F3 & _).
      destruct (IH (total (size s3 ws3 cs3) n) ltac:(lia) s3 ws3 cs3 I3 F3 (le_n _)) as (s4 & ws4 & cs4 & R4 & X). exists s4, ws4, cs4. split; [|exact X].
      eapply reach_trans; [exact R1|]. eapply reach_trans; [exact R2|]. eapply reach_trans; eauto.
    - exists s2, ws2, cs2. split; [eapply reach_trans; eauto|]. auto.
  Qed.
  Lemma all_shut s ws cs : minv s ws cs -> wl (item s n) = false -> forall i, i <= n -> wl (item s i) = false.
  Proof.
    intros I W i Hi. assert (G : forall k, k <= n -> wl (item s (n - k)) = false).
    { induction k as [|k IH]; intros Hk; [now rewrite Nat.sub_0_r|]. apply (v_order s ws cs I HT); [lia|]. replace (S (n - S k)) with (n - k) by lia. apply IH. lia. }
    replace i with (n - (n - i)) by lia. apply G. lia.
  Qed.
  (** Everybody is told about. *)
  Lemma tell_all k : forall s ws cs, minv s ws cs -> fits s -> m_wr s = None -> (forall i, i <= n -> wl (item s i) = false) -> k <= S n ->
    exists s' ws' cs', reach s ws cs s' ws' cs' /\ m_wr s' = None /\ m_items s' = m_items s /\ m_rd s' = m_rd s /\ (forall i, i < k -> proc (item s' i) = true -> m_told s' i = true) /\ (m_woken s = true -> m_woken s' = true).
  Proof.
    induction k as [|k IH]; intros s ws cs I F Ew Sh Hk.
    - exists s, ws, cs. split; [now apply reach_refl|]. repeat split; auto. intros i Hi. lia.
    - destruct (IH s ws cs I F Ew Sh ltac:(lia)) as (s1 & ws1 & cs1 & R1 & A & B & C & D & E). pose proof R1 as (_ & I1 & F1 & L1).
      destruct (proc (item s1 k) && negb (m_told s1 k)) eqn:G.
      + apply andb_prop in G as [G1 G2]. set (s2 := mkM (m_items s1) (m_pipes s1) (m_in s1) (m_rd s1) (m_ok s1) None (fun j => Nat.eqb j k || m_told s1 j) true).
        assert (St : mstepH s1 (MTold k) = Some s2).
        { unfold mstep, loop_step. rewrite A, G2. destruct (Nat.ltb_spec k (List.length (m_items s1))) as [_|X]; [|rewrite (v_len _ _ _ I1) in X; lia]. pose proof (Sh k ltac:(lia)) as W. rewrite <- B in W.
          destruct (item s1 k) as [[p|]|g]; [discriminate|reflexivity|discriminate]. }
        destruct (reach_step s1 ws1 cs1 _ _ I1 F1 St) as (ws2 & cs2 & R2 & _). exists s2, ws2, cs2. split; [eapply reach_trans; eauto|]. split; [reflexivity|]. split; [exact B|]. split; [exact C|]. split; [|reflexivity].
        intros i Hi Pi. cbn [s2 m_told]. destruct (Nat.eqb_spec i k); [reflexivity|]. apply D; [lia|exact Pi].
      + exists s1, ws1, cs1. split; [exact R1|]. split; [exact A|]. split; [exact B|]. split; [exact C|]. split; [|exact E]. intros i Hi Pi. destruct (Nat.eq_dec i k) as [->|Ne]; [|apply D; [lia|exact Pi]].
        rewrite Pi in G. cbn in G. now apply negb_false_iff in G.
  Qed.
  Lemma finishes s ws cs : minv s ws cs -> fits s -> exists ls s', mstepsH s ls = Some s' /\ ended (r_out (m_rd s')).
  Proof.
    intros I F. destruct (to_the_end _ s ws cs I F (le_n _)) as (s1 & ws1 & cs1 & R1 & A1 & W1 & P1). pose proof R1 as (_ & I1 & F1 & _).
    destruct (D2 _ (v_rd s1 ws1 cs1 I1) P1) as (r' & Dr & Ph); [rewrite (v_wopen _ _ _ I1); exact W1|].
    destruct (drain_mix s1 ws1 cs1 r' I1 F1 A1 Dr) as (s2 & ws2 & cs2 & R2 & A2 & B2 & C2). pose proof R2 as (_ & I2 & F2 & _).
    assert (Sh : forall i, i <= n -> wl (item s2 i) = false) by (rewrite B2; now apply (all_shut s1 ws1 cs1)).
    destruct (tell_all (S n) s2 ws2 cs2 I2 F2 A2 Sh (le_n _)) as (s3 & ws3 & cs3 & R3 & A3 & B3 & C3 & D3 & E3). pose proof R3 as (_ & I3 & F3 & _).
    assert (P3 : r_phase (m_rd s3) = PAtEof) by (rewrite C3, C2; exact Ph).
    assert (K3 : m_woken s3 = true).
    { destruct (m_woken s3) eqn:Ek; [reflexivity|]. destruct (v_wake _ _ _ I3 HT) as (i & Hi & Pi & Ti); [unfold m_at_eof; now rewrite P3|exact Ek|]. rewrite (D3 i ltac:(lia) Pi) in Ti. discriminate. }
    assert (Nr : mrunning H s3 = false).
    { destruct (mrunning H s3) eqn:Er; [|reflexivity]. apply runs_spec in Er as (i & Hi & Ri). rewrite (v_len _ _ _ I3) in Hi. pose proof (Sh i ltac:(lia)) as Wi. rewrite <- B3 in Wi. unfold item_runs in Ri.
      pose proof (D3 i ltac:(lia)) as Ti. destruct (item s3 i) as [p|g] eqn:Ei; [now rewrite Ti in Ri|]. pose proof (v_fun _ _ _ I3 _ _ Ei) as Fo. cbn in Wi. rewrite (fo_done _ _ Fo) in Wi. destruct (g_done g); discriminate. }
    set (r4 := mkR (r_h (m_rd s3)) (r_pend (m_rd s3)) (r_wopen (m_rd s3)) PIdle (r_out (m_rd s3) ++ [if m_ok s3 then GStop else GFailed]) (r_sent (m_rd s3))).
    assert (St : mstepH s3 (MRd (LAtEof (m_ok s3))) = Some (with_rd H s3 r4)).
    { unfold mstep, loop_step. rewrite A3, K3, Nr, eqb_reflx. cbn [negb andb]. unfold rstep. now rewrite P3. }
    pose proof (reach_trans _ _ _ _ _ _ _ _ _ R1 (reach_trans _ _ _ _ _ _ _ _ _ R2 R3)) as ([ls E] & _). exists (ls ++ [MRd (LAtEof (m_ok s3))]), (with_rd H s3 r4). split.
    - rewrite msteps_app, E. cbn [msteps]. now rewrite St.
    - cbn. unfold ended. rewrite !in_app_iff. destruct (m_ok s3); cbn; auto.
  Qed.
End Mix.
