From Verif Require Import Py RedirModel Os PerformModel PerformSpec RunModel RunSpec RunTopSpec RunEnds IterModel IterSpec IterProofs NetModel NetSpec NetProofs NestModel NestSpec.

Lemma chan_eqb_spec a b : reflect (a = b) (chan_eqb a b).
Proof.
  destruct a as [|i], b as [|j]; cbn; try (constructor; congruence). destruct (Nat.eqb_spec i j); constructor; congruence.
Qed.
Lemma chan_eqb_refl a : chan_eqb a a = true.
Proof. destruct (chan_eqb_spec a a); congruence. Qed.

(** [mdoes] with the number of steps. *)
Inductive mdoesn : nat -> mprog -> (chan -> option (list N)) -> list N -> bool -> Prop :=
| mdn_exit c ok ins : mdoesn (S c) (MExits ok) ins [] ok
| mdn_write n b k ins out ok : mdoesn n (k true) ins out ok -> mdoesn (S n) (MWrites b k) ins (b :: out) ok
| mdn_read n c k b r ins out ok : ins c = Some (b :: r) -> mdoesn n (k (Some b)) (rest_of ins c r) out ok -> mdoesn (S n) (MReads c k) ins out ok
| mdn_eof n c k ins out ok : ins c = Some [] -> mdoesn n (k None) ins out ok -> mdoesn (S n) (MReads c k) ins out ok.
Lemma mdoes_n p ins out ok : mdoes p ins out ok -> exists n, mdoesn n p ins out ok.
Proof.
  induction 1 as [ok ins|b k ins out ok _ (n & IH)|c k b r ins out ok E _ (n & IH)|c k ins out ok E _ (n & IH)]; [exists 1; constructor|exists (S n); now constructor| |].
  - exists (S n). eapply mdn_read; eassumption.
  - exists (S n). now apply mdn_eof.
Qed.
Lemma mdoesn_pos n p ins out ok : mdoesn n p ins out ok -> 0 < n.
Proof. destruct 1; lia. Qed.
Lemma rest_ext ins ins' c r : (forall d, ins d = ins' d) -> forall d, rest_of ins c r d = rest_of ins' c r d.
Proof. intros E d. unfold rest_of. now rewrite E. Qed.
Lemma mdoesn_ext n p ins out ok : mdoesn n p ins out ok -> forall ins', (forall c, ins c = ins' c) -> mdoesn n p ins' out ok.
Proof.
  induction 1 as [c ok ins|n b k ins out ok _ IH|n c k b r ins out ok E _ IH|n c k ins out ok E _ IH]; intros ins' X; [constructor|constructor; auto| |].
  - eapply mdn_read; [rewrite <- X; exact E|]. apply IH. now apply rest_ext.
  - apply mdn_eof; [rewrite <- X; exact E|]. now apply IH.
Qed.
Lemma mdoes_ext p ins out ok : mdoes p ins out ok -> forall ins', (forall c, ins c = ins' c) -> mdoes p ins' out ok.
Proof.
  induction 1 as [ok ins|b k ins out ok _ IH|c k b r ins out ok E _ IH|c k ins out ok E _ IH]; intros ins' X; [constructor|constructor; auto| |].
  - eapply mdoes_read; [rewrite <- X; exact E|]. apply IH. now apply rest_ext.
  - apply mdoes_eof; [rewrite <- X; exact E|]. now apply IH.
Qed.
Lemma mreads_ext p ins l : mreads p ins l -> forall ins', (forall c, ins c = ins' c) -> mreads p ins' l.
Proof.
  induction 1 as [p ins|b k ins l _ IH|c k b r ins l E _ IH|c k ins l l' E S _ IH]; intros ins' X; [constructor|constructor; auto| |].
  - eapply mreads_read; [rewrite <- X; exact E|]. apply IH. now apply rest_ext.
  - eapply mreads_eof; [rewrite <- X; exact E|exact S|]. now apply IH.
Qed.

Section Graph.
  Variable H : Type.
  Variable h_wants : H -> bool.
  Variable h_event : H -> bytes -> H * bool.
  Variable h_next h_resume : H -> H * outcome.
  Variable h_open : H -> bool.
  Variables np cap : nat.
  Variable fds : list nat.
  Variable sees : list (nat -> option ofd).
  Variable argvs : list (list aword).
  Variable shell : tab.
  Variables x n : nat.
  (** [pw i]: the pipe process i writes; [al i c]: process i may read c. *)
  Variable pw : nat -> nat.
  Variable al : nat -> chan -> bool.
  Notation K := (pw n).
  Notation see i := (nth i sees (fun _ => None)).
  Notation rstepH := (rstep H h_wants h_event h_next h_resume h_open true).
  Notation rstepsH := (rsteps H h_wants h_event h_next h_resume h_open true).
  Notation m_stepH := (m_step H h_wants h_event h_next h_resume h_open np cap fds sees argvs shell x K).
  Notation m_stepsH := (m_steps H h_wants h_event h_next h_resume h_open np cap fds sees argvs shell x K).
  Notation m_procH := (m_proc H h_open np cap fds sees argvs shell x K).
  Notation writer := (m_writer H h_open fds sees shell x).
  Notation reader := (m_reader H h_open fds sees shell x).
  Notation content := (m_content H K).
  Notation ofdc := (chan_ofd sees argvs).
  Hypothesis Hlen : List.length sees = S n.
  Hypothesis Hpw : forall i, i <= n -> np <= pw i.
  Hypothesis Hinj : forall i j, i <= n -> j <= n -> pw i = pw j -> i = j.
  Hypothesis Hout : forall i, i <= n -> see i 1 = Some (OPipeW (pw i)).
  Hypothesis Hw : forall i m k, i <= n -> In m fds -> np <= k -> see i m = Some (OPipeW k) -> k = pw i.
  Hypothesis Hr : forall i m k, i <= n -> In m fds -> np <= k -> see i m = Some (OPipeR k) -> exists j, j < i /\ k = pw j.
  Hypothesis H1 : In 1 fds.
  Hypothesis Hal : forall i c, al i c = true -> i <= n /\ exists m, chan_fd (nth i argvs []) c = Some m /\ In m fds /\ see i m <> None.
  Definition from (i : nat) (c : chan) : option nat := match ofdc i c with Some (OPipeR k) => if ours np k then Some k else None | _ => None end.
  Hypothesis Huniq : forall i c i' c' k, al i c = true -> al i' c' = true -> from i c = Some k -> from i' c' = Some k -> i = i' /\ c = c'.
  Hypothesis Hread : forall j, j < n -> exists i c, al i c = true /\ from i c = Some (pw j).
  (** [E]: the shell's standard input is at its end; otherwise only one may read it. *)
  Variable E : Prop.
  Hypothesis Hext : E \/ forall i c i' c', al i c = true -> al i' c' = true -> from i c = None -> from i' c' = None -> i = i' /\ c = c'.
  Hypothesis Hsw : forall m k, refers shell m = Some (OPipeW k) -> k < np.
  Hypothesis Hsr : forall m k, refers shell m = Some (OPipeR k) -> np <= k -> m = x.
  Hypothesis Hx : refers shell x = Some (OPipeR K).
  Variable RI : rstate H -> Prop.
  Hypothesis RI_step : forall r l r', RI r -> rstepH r l = Some r' -> RI r'.
  Hypothesis RI_open : forall r, RI r -> h_open (r_h r) = false -> r_wopen r = false.

  Definition m_alive (ps : list (option mprog)) (i : nat) : bool := match nth i ps None with Some _ => true | None => false end.
  Definition m_dead (s : nest H) (i : nat) : Prop := nth i (m_procs s) None = None.
  Lemma m_live_spec test : forall ps ss, m_live fds test ps ss = true <->
    exists i q m, nth_error ps i = Some (Some q) /\ In m fds /\ exists see, nth_error ss i = Some see /\ test (see m) = true.
  Proof.
    induction ps as [|p ps IH]; intros ss; cbn [m_live].
    - split; [discriminate|]. intros (i & q & m & X & _). destruct i; discriminate.
    - destruct ss as [|see ss]; [split; [discriminate|]; intros (i & q & m & _ & _ & f & X & _); destruct i; discriminate|].
      rewrite orb_true_iff, IH. split.
      + intros [X|(i & q & m & A & B & f & C & D)].
        * destruct p as [q|]; [|discriminate]. apply existsb_exists in X as (m & Im & Tm). exists 0, q, m. split; [reflexivity|]. split; [exact Im|]. now exists see.
        * exists (S i), q, m. split; [exact A|]. split; [exact B|]. now exists f.
      + intros (i & q & m & A & B & f & C & D). destruct i as [|i].
        * left. cbn in A, C. injection A as ->. injection C as ->. apply existsb_exists. now exists m.
        * right. exists i, q, m. split; [exact A|]. split; [exact B|]. now exists f.
  Qed.
  Lemma m_live_nth test ps : List.length ps = S n -> (m_live fds test ps sees = true <-> exists i m, i <= n /\ m_alive ps i = true /\ In m fds /\ test (see i m) = true).
  Proof.
    intros L. rewrite m_live_spec. split.
    - intros (i & q & m & A & B & f & C & D). exists i, m. assert (Hi : i < List.length ps) by (apply nth_error_Some; congruence). split; [lia|]. unfold m_alive.
      rewrite (nth_error_nth _ _ _ A). split; [reflexivity|]. split; [exact B|]. now rewrite (nth_error_nth _ _ _ C).
    - intros (i & m & Hi & A & B & C). unfold m_alive in A. destruct (nth i ps None) as [q|] eqn:Eq; [|discriminate]. exists i, q, m.
      split; [rewrite <- Eq; apply nth_error_nth'; lia|]. split; [exact B|]. exists (see i). split; [apply nth_error_nth'; lia|exact C].
  Qed.
  Lemma shell_no_w r k : np <= k -> shell_has H h_open shell x (is_w k) r = false.
  Proof.
    intros Hk. destruct (shell_has _ _ _ _ _ _) eqn:X; [|reflexivity]. apply existsb_exists in X as (m & _ & X). apply andb_true_iff in X as [X _].
    apply is_w_spec in X. apply Hsw in X. lia.
  Qed.
  Lemma shell_r r k : np <= k -> shell_has H h_open shell x (is_r k) r = Nat.eqb k K && h_open (r_h r).
  Proof.
    intros Hk. apply eq_true_iff_eq. rewrite andb_true_iff, Nat.eqb_eq. unfold shell_has. rewrite existsb_exists. split.
    - intros (m & _ & X). apply andb_true_iff in X as [X Y]. apply is_r_spec in X. pose proof (Hsr m k X Hk) as ->. rewrite Nat.eqb_refl in Y. split; [congruence|exact Y].
    - intros [-> O]. exists x. split.
      + apply in_seq. split; [lia|]. cbn. eapply refers_lt. exact Hx.
      + rewrite Hx. cbn [is_r]. now rewrite !Nat.eqb_refl, O.
  Qed.
  Lemma writer_is s ps j : List.length ps = S n -> j <= n -> writer s ps (pw j) = m_alive ps j.
  Proof.
    intros L Hj. unfold m_writer. rewrite (shell_no_w _ _ (Hpw j Hj)), orb_false_r. apply eq_true_iff_eq. rewrite (m_live_nth _ _ L). split.
    - intros (i & m & Hi & A & B & C). apply is_w_spec in C. apply Hw in C; auto. apply Hinj in C; auto. now subst.
    - intros A. exists j, 1. split; [exact Hj|]. split; [exact A|]. split; [exact H1|]. apply is_w_spec. now apply Hout.
  Qed.
  Lemma reader_none s j : List.length (m_procs s) = S n -> j <= n -> reader s (pw j) = false ->
    (j = n -> h_open (r_h (m_rd s)) = false) /\ forall r c, al r c = true -> from r c = Some (pw j) -> m_dead s r.
  Proof.
    intros L Hj X. unfold m_reader in X. apply orb_false_iff in X as [X Y]. rewrite (shell_r _ _ (Hpw j Hj)) in Y. split.
    - intros ->. now rewrite Nat.eqb_refl in Y.
    - intros r c A F. destruct (Hal r c A) as (Hrn & m & Em & Im & _). unfold m_dead. destruct (nth r (m_procs s) None) as [q|] eqn:Eq; [|reflexivity]. exfalso.
      assert (Z : m_live fds (is_r (pw j)) (m_procs s) sees = true); [|congruence]. apply m_live_nth; [exact L|]. exists r, m. split; [exact Hrn|].
      split; [unfold m_alive; now rewrite Eq|]. split; [exact Im|]. apply is_r_spec. unfold from, chan_ofd in F. rewrite Em in F. destruct (see r m) as [[]|]; try discriminate.
      destruct (ours np k); [|discriminate]. congruence.
  Qed.
  Lemma no_reader s j : List.length (m_procs s) = S n -> j < n -> (forall i, j < i -> m_dead s i) -> reader s (pw j) = false.
  Proof.
    intros L Hj D. unfold m_reader. rewrite (shell_r _ _ (Hpw j ltac:(lia))). destruct (Nat.eqb_spec (pw j) K) as [X|_]; [apply Hinj in X; lia|]. cbn [andb]. rewrite orb_false_r.
    destruct (m_live _ _ _ _) eqn:X; [|reflexivity]. apply m_live_nth in X; [|exact L]. destruct X as (i & m & Hi & A & Im & C). apply is_r_spec in C.
    apply Hr in C; auto; [|apply Hpw; lia]. destruct C as (j' & Lt & C). apply Hinj in C; [|lia|lia]. subst j'. unfold m_alive in A. now rewrite D in A.
  Qed.

  (** What process [i] finds in a file, [ws] being what is still to be written. *)
  Definition feeds (s : nest H) (ws : nat -> list N) (i : nat) (c : chan) : option (list N) :=
    if al i c then Some (match from i c with Some k => content s k ++ ws k | None => m_in s end) else None.
  Definition readers_gone (s : nest H) (i : nat) : Prop := i <> n /\ forall r c, al r c = true -> from r c = Some (pw i) -> m_dead s r.
  Variable out : list N.
  Variable oks : nat -> bool.
  Variable T : Prop.
  (** The files process [i] has not read to the end are in [l]. *)
  Definition to_read (s : nest H) (i : nat) (l : list chan) : Prop := forall c j, al i c = true -> from i c = Some (pw j) -> j <= n -> In c l \/ m_dead s j.
  Definition good (s : nest H) (ws : nat -> list N) (c : nat) (i : nat) (q : mprog) : Prop :=
    mdoesn c q (feeds s ws i) (ws (pw i)) (oks i) /\ mcareful q /\ (T -> exists l, mreads q (feeds s ws i) l /\ to_read s i l).
  Definition bad (s : nest H) (c : nat) (i : nat) (q : mprog) : Prop := readers_gone s i /\ q = MExits false /\ 0 < c /\ ~ T.
  Record minv (s : nest H) (ws : nat -> list N) (cs : nat -> nat) : Prop := {
    v_len : List.length (m_procs s) = S n;
    v_rd : RI (m_rd s);
    v_sent : r_sent (m_rd s) ++ ws K = out;
    v_wopen : r_wopen (m_rd s) = m_alive (m_procs s) n;
    v_ext : E -> m_in s = [];
    v_live : forall i q, nth i (m_procs s) None = Some q -> good s ws (cs i) i q \/ bad s (cs i) i q;
    v_dead : forall i, i <= n -> m_dead s i -> ws (pw i) = [] \/ readers_gone s i;
    v_order : T -> forall i, i <= n -> m_dead s i -> to_read s i [];
    v_status : forall i, i <= n -> m_dead s i -> oks i = false -> m_ok s = false;
    v_ok : T -> (forall i, i <= n -> oks i = true) -> m_ok s = true }.

  (** A step of process i: the others find what they found. *)
  Lemma minv_update s ws cs i q0 s' q' ws' c' :
    minv s ws cs -> nth i (m_procs s) None = Some q0 -> m_procs s' = set_nth (m_procs s) i q' ->
    RI (m_rd s') -> r_sent (m_rd s') ++ ws' K = out -> r_wopen (m_rd s') = m_alive (m_procs s') n -> (E -> m_in s' = []) ->
    (forall j c, j <> i -> feeds s' ws' j c = feeds s ws j c) -> (forall j, j <= n -> j <> i -> ws' (pw j) = ws (pw j)) ->
    match q' with
    | Some q => m_ok s' = m_ok s /\ (good s' ws' c' i q \/ bad s' c' i q)
    | None => (ws' (pw i) = [] \/ readers_gone s' i) /\ (T -> to_read s' i []) /\ exists ok, m_ok s' = m_ok s && ok /\ (oks i = false -> ok = false) /\ (T -> oks i = true -> ok = true)
    end ->
    minv s' ws' (upd cs i c').
  Proof.
    intros I E0 Ep A1 A2 A3 A4 A5 A6 A7. pose proof (nth_some_lt _ _ _ E0) as Hi. pose proof (v_len _ _ _ I) as L. rewrite L in Hi.
    assert (Nth : forall j, nth j (m_procs s') None = if Nat.eqb j i then q' else nth j (m_procs s) None) by (intros j; rewrite Ep; apply nth_set_nth; lia).
    assert (Dk : forall j, m_dead s j -> m_dead s' j).
    { intros j D. unfold m_dead in *. rewrite Nth. destruct (Nat.eqb_spec j i) as [->|]; [congruence|exact D]. }
    assert (Rk : forall j, readers_gone s j -> readers_gone s' j) by (intros j [Z1 Z2]; split; [exact Z1|]; intros r c U V; apply Dk; eauto).
    assert (Tk : forall j l, to_read s j l -> to_read s' j l) by (intros j l Z c k U V W; destruct (Z c k U V W); auto).
    constructor; try assumption.
    - now rewrite Ep, set_nth_length.
    - intros j q Ej. rewrite Nth in Ej. destruct (Nat.eqb_spec j i) as [->|Ne].
      + subst q'. rewrite upd_eq. apply A7.
      + rewrite upd_ne by exact Ne. assert (Hj : j <= n) by (apply nth_some_lt in Ej; lia). destruct (v_live _ _ _ I j q Ej) as [(G1 & G2 & G3)|(B1 & B2)].
        * left. split; [|split; [exact G2|]].
          -- rewrite A6 by assumption. eapply mdoesn_ext; [exact G1|]. intros c. symmetry. now apply A5.
          -- intros HT. destruct (G3 HT) as (l & M & Z). exists l. split; [|now apply Tk]. eapply mreads_ext; [exact M|]. intros c. symmetry. now apply A5.
        * right. split; [now apply Rk|exact B2].
    - intros j Hj D. destruct (Nat.eq_dec j i) as [->|Ne].
      + unfold m_dead in D. rewrite Nth, Nat.eqb_refl in D. subst q'. apply A7.
      + rewrite A6 by assumption. unfold m_dead in D. rewrite Nth in D. destruct (Nat.eqb_spec j i); [contradiction|]. destruct (v_dead _ _ _ I j Hj D); auto.
    - intros HT j Hj D. destruct (Nat.eq_dec j i) as [->|Ne].
      + unfold m_dead in D. rewrite Nth, Nat.eqb_refl in D. subst q'. apply A7. exact HT.
      + unfold m_dead in D. rewrite Nth in D. destruct (Nat.eqb_spec j i); [contradiction|]. apply Tk. now apply (v_order _ _ _ I).
    - intros j Hj D Oj. assert (Mono : m_ok s = false -> m_ok s' = false).
      { intros Z. destruct q'; [destruct A7 as [-> _]; exact Z|destruct A7 as (_ & _ & ok & -> & _); now rewrite Z]. }
      destruct (Nat.eq_dec j i) as [->|Ne].
      + unfold m_dead in D. rewrite Nth, Nat.eqb_refl in D. subst q'. destruct A7 as (_ & _ & ok & -> & Z & _). rewrite (Z Oj). apply andb_false_r.
      + unfold m_dead in D. rewrite Nth in D. destruct (Nat.eqb_spec j i); [contradiction|]. apply Mono. now apply (v_status _ _ _ I j).
    - intros HT AO. destruct q' as [q|]; [destruct A7 as [-> _]; now apply (v_ok _ _ _ I)|]. destruct A7 as (_ & _ & ok & -> & _ & Z). rewrite (v_ok _ _ _ I HT AO), (Z HT (AO i ltac:(lia))). reflexivity.
  Qed.

  Lemma feeds_becomes s ws i p j c : feeds (m_becomes H s i p) ws j c = feeds s ws j c.
  Proof. reflexivity. Qed.
  Lemma nth_procs_le s ws cs i q : minv s ws cs -> nth i (m_procs s) None = Some q -> i <= n.
  Proof. intros I X. apply nth_some_lt in X. rewrite (v_len _ _ _ I) in X. lia. Qed.
  Lemma content_push s k b k' : content (m_push H K s k b) k' = if Nat.eqb k' k then content s k ++ [b] else content s k'.
  Proof.
    unfold m_content, m_push. destruct (Nat.eqb_spec k K) as [->|Nk].
    - cbn [m_rd m_pipes with_pend r_pend]. destruct (Nat.eqb_spec k' K) as [->|Nk']; reflexivity.
    - cbn [m_rd m_pipes]. destruct (Nat.eqb_spec k' K) as [->|Nk'].
      + destruct (Nat.eqb_spec K k); [congruence|reflexivity].
      + reflexivity.
  Qed.
  Lemma content_pop s k k' : k <> K -> content (m_pop H K s k) k' = if Nat.eqb k' k then tl (content s k) else content s k'.
  Proof.
    intros Nk. unfold m_content, m_pop. destruct (Nat.eqb_spec k K) as [|_]; [contradiction|]. cbn [m_rd m_pipes].
    destruct (Nat.eqb_spec k' K) as [->|Nk']; [|reflexivity]. destruct (Nat.eqb_spec K k); [congruence|reflexivity].
  Qed.
  Lemma pop_same s k : k <> K -> m_procs (m_pop H K s k) = m_procs s /\ m_rd (m_pop H K s k) = m_rd s /\ m_in (m_pop H K s k) = m_in s /\ m_ok (m_pop H K s k) = m_ok s.
  Proof. intros Nk. unfold m_pop. destruct (Nat.eqb_spec k K); [contradiction|]. now repeat split. Qed.
  Lemma push_same s k b : m_procs (m_push H K s k b) = m_procs s /\ m_in (m_push H K s k b) = m_in s /\ m_ok (m_push H K s k b) = m_ok s.
  Proof. unfold m_push. destruct (Nat.eqb k K); now repeat split. Qed.
  Lemma from_K i c k : al i c = true -> from i c = Some k -> exists j, j < i /\ k = pw j /\ k <> K.
  Proof.
    intros A F. destruct (Hal i c A) as (Hi & m & Em & Im & _). unfold from, chan_ofd in F. rewrite Em in F. destruct (see i m) as [o|] eqn:Eo; [|discriminate].
    destruct o; try discriminate. destruct (ours np k0) eqn:O; [|discriminate]. injection F as ->. apply Nat.leb_le in O.
    destruct (Hr i m k Hi Im O Eo) as (j & Lj & ->). exists j. split; [exact Lj|]. split; [reflexivity|]. intros X. apply Hinj in X; lia.
  Qed.

  Lemma RI_steps rl : forall r r', RI r -> rstepsH r rl = Some r' -> RI r'.
  Proof.
    induction rl as [|l rl IH]; intros r r' Hr0; cbn [rsteps]; [intros X; now injection X as <-|].
    destruct (rstepH r l) as [r1|] eqn:E1; [|discriminate]. apply IH. eapply RI_step; eauto.
  Qed.
  Definition mgoes (s s' : nest H) (ws : nat -> list N) (cs : nat -> nat) (i : nat) : Prop :=
    exists ws' c, minv s' ws' (upd cs i c) /\ c < cs i /\ exists rl, rstepsH (m_rd s) rl = Some (m_rd s').

  Lemma alive_set ps i j (v : option mprog) : List.length ps = S n -> i <= n -> m_alive (set_nth ps i v) j = if Nat.eqb j i then match v with Some _ => true | None => false end else m_alive ps j.
  Proof. intros L Hi. unfold m_alive. rewrite nth_set_nth by lia. destruct (Nat.eqb j i); reflexivity. Qed.

  Lemma go_exit s ws cs i ok : minv s ws cs -> nth i (m_procs s) None = Some (MExits ok) -> mgoes s (m_gone H h_open fds sees shell x K s i ok) ws cs i.
  Proof.
    intros I E0. pose proof (nth_procs_le _ _ _ _ _ I E0) as Hi. pose proof (v_len _ _ _ I) as L.
    set (s' := m_gone H h_open fds sees shell x K s i ok).
    assert (Wo : r_wopen (m_rd s') = m_alive (m_procs s') n).
    { cbn [s' m_gone m_rd m_procs r_wopen]. rewrite (v_wopen _ _ _ I). rewrite writer_is by (rewrite ?set_nth_length; auto). rewrite alive_set by assumption.
      destruct (Nat.eqb_spec n i) as [->|]; [apply andb_false_r|apply andb_diag]. }
    assert (Rd : exists rl, rstepsH (m_rd s) rl = Some (m_rd s')).
    { destruct (Nat.eq_dec i n) as [->|Ne].
      - exists [LClose]. cbn [rsteps]. assert (Ow : r_wopen (m_rd s) = true) by (rewrite (v_wopen _ _ _ I); unfold m_alive; now rewrite E0).
        rewrite rstep_close by exact Ow. f_equal. cbn [m_procs s' m_gone] in Wo. rewrite alive_set, Nat.eqb_refl in Wo by assumption. cbn [s' m_gone m_rd] in *. f_equal. cbn [r_wopen] in Wo. now symmetry.
      - exists []. cbn [rsteps]. f_equal. assert (Ow : r_wopen (m_rd s') = r_wopen (m_rd s)).
        { rewrite Wo, (v_wopen _ _ _ I). cbn [s' m_gone m_procs]. rewrite alive_set by assumption. destruct (Nat.eqb_spec n i); [congruence|reflexivity]. }
        cbn [s' m_gone m_rd r_wopen] in *. rewrite Ow. destruct (m_rd s); reflexivity. }
    destruct (v_live _ _ _ I i _ E0) as [(G1 & _ & G3)|(B1 & B2 & B3 & B4)].
    - inversion G1 as [c0 ok0 ins0 Ec Eo Ei Ew Ek| | |]; subst. exists ws, 0. split; [|split; [lia|exact Rd]].
      eapply (minv_update s ws cs i (MExits (oks i)) s' None); eauto.
      + destruct Rd as (rl & Rd). exact (RI_steps rl _ _ (v_rd _ _ _ I) Rd).
      + cbn [s' m_gone m_rd r_sent]. apply (v_sent _ _ _ I).
      + cbn. apply (v_ext _ _ _ I).
      + split; [left; now symmetry|]. split.
        * intros HT. destruct (G3 HT) as (l & M & Z). inversion M; subst. intros c j U V W. destruct (Z c j U V W) as [[]|D]. right. unfold m_dead in *. cbn [s' m_gone m_procs].
          rewrite nth_set_nth by lia. destruct (Nat.eqb j i); [reflexivity|exact D].
        * exists (oks i). split; [reflexivity|]. split; auto.
    - injection B2 as ->. exists ws, 0. split; [|split; [exact B3|exact Rd]].
      eapply (minv_update s ws cs i (MExits false) s' None); eauto.
      + destruct Rd as (rl & Rd). exact (RI_steps rl _ _ (v_rd _ _ _ I) Rd).
      + cbn [s' m_gone m_rd r_sent]. apply (v_sent _ _ _ I).
      + cbn. apply (v_ext _ _ _ I).
      + split; [right|split; [now intros HT; destruct B4|]].
        * destruct B1 as [Z1 Z2]. split; [exact Z1|]. intros r c U V. specialize (Z2 r c U V). unfold m_dead in *. cbn [s' m_gone m_procs]. rewrite nth_set_nth by lia. destruct (Nat.eqb r i); [reflexivity|exact Z2].
        * exists false. split; [reflexivity|]. split; [auto|]. intros HT; destruct (B4 HT).
  Qed.

  Lemma careful_write b k : mcareful (MWrites b k) -> k false = MExits false /\ mcareful (k true).
  Proof. inversion 1; auto. Qed.
  Lemma careful_read c k : mcareful (MReads c k) -> forall o, mcareful (k o).
  Proof. inversion 1; auto. Qed.

  Lemma go_epipe s ws cs i b k : minv s ws cs -> nth i (m_procs s) None = Some (MWrites b k) -> reader s (pw i) = false ->
    mgoes s (m_becomes H s i (k false)) ws cs i.
  Proof.
    intros I E0 Rn. pose proof (nth_procs_le _ _ _ _ _ I E0) as Hi. pose proof (v_len _ _ _ I) as L.
    destruct (v_live _ _ _ I i _ E0) as [(G1 & G2 & G3)|(_ & B2 & _)]; [|discriminate].
    destruct (careful_write _ _ G2) as [Kf _]. destruct (reader_none s i L Hi Rn) as [Op Rd].
    assert (Ne : i <> n).
    { intros ->. specialize (Op eq_refl). apply RI_open in Op; [|apply (v_rd _ _ _ I)]. rewrite (v_wopen _ _ _ I) in Op. unfold m_alive in Op. now rewrite E0 in Op. }
    inversion G1 as [|c0 b0 k0 ins0 out0 ok0 G1'| |]; subst. exists ws, c0. split; [|split; [lia|now exists []]].
    eapply (minv_update s ws cs i (MWrites b k) _ (Some (k false))); eauto; try (cbn; reflexivity); try apply (v_rd _ _ _ I); try apply (v_sent _ _ _ I); try apply (v_ext _ _ _ I).
    - cbn [m_becomes m_rd m_procs]. rewrite (v_wopen _ _ _ I), alive_set by assumption. destruct (Nat.eqb_spec n i); [congruence|reflexivity].
    - split; [reflexivity|]. right. split.
      + split; [exact Ne|]. intros r c U V. specialize (Rd r c U V). unfold m_dead in *. cbn [m_becomes m_procs]. rewrite nth_set_nth by lia. destruct (Nat.eqb_spec r i); [congruence|exact Rd].
      + split; [exact Kf|]. split; [eapply mdoesn_pos; eauto|]. intros HT. destruct (Hread i ltac:(lia)) as (r & c & U & V). pose proof (Rd r c U V) as D.
        destruct (Hal r c U) as (Hrn & _). destruct (v_order _ _ _ I HT r Hrn D c i U V Hi) as [[]|D2]. unfold m_dead in D2. congruence.
  Qed.

  (** Process [i] goes on; [s1] is [s] with the contents of a pipe, or the input, changed. *)
  Lemma go_on s ws cs i q s1 ws' q' c' : minv s ws cs -> nth i (m_procs s) None = Some q ->
    m_procs s1 = m_procs s -> m_ok s1 = m_ok s -> RI (m_rd s1) -> r_sent (m_rd s1) ++ ws' K = out -> r_wopen (m_rd s1) = r_wopen (m_rd s) -> (E -> m_in s1 = []) ->
    (forall j c, j <> i -> feeds s1 ws' j c = feeds s ws j c) -> (forall j, j <= n -> j <> i -> ws' (pw j) = ws (pw j)) ->
    mdoesn c' q' (feeds s1 ws' i) (ws' (pw i)) (oks i) -> mcareful q' -> (T -> exists l, mreads q' (feeds s1 ws' i) l /\ to_read s i l) ->
    minv (m_becomes H s1 i q') ws' (upd cs i c').
  Proof.
    intros I E0 A1 A2 A3 A4 A5 A6 A7 A8 G1 G2 G3. pose proof (nth_procs_le _ _ _ _ _ I E0) as Hi. pose proof (v_len _ _ _ I) as L.
    eapply (minv_update s ws cs i q _ (Some q')); eauto.
    - cbn. now rewrite A1.
    - cbn [m_becomes m_rd m_procs]. rewrite A5, (v_wopen _ _ _ I), A1, alive_set by assumption. destruct (Nat.eqb_spec n i) as [->|]; [|reflexivity]. unfold m_alive. now rewrite E0.
    - split; [exact A2|]. left. split; [exact G1|]. split; [exact G2|]. intros HT. destruct (G3 HT) as (l & M & Z). exists l. split; [exact M|].
      intros c j U V W. destruct (Z c j U V W) as [X|X]; [now left|right]. unfold m_dead in *. cbn [m_becomes m_procs]. rewrite A1, nth_set_nth by lia. destruct (Nat.eqb_spec j i); [congruence|exact X].
  Qed.

  Lemma go_write s ws cs i b k : minv s ws cs -> nth i (m_procs s) None = Some (MWrites b k) -> mgoes s (m_becomes H (m_push H K s (pw i) b) i (k true)) ws cs i.
  Proof.
    intros I E0. pose proof (nth_procs_le _ _ _ _ _ I E0) as Hi. pose proof (v_len _ _ _ I) as L.
    destruct (v_live _ _ _ I i _ E0) as [(G1 & G2 & G3)|(_ & B2 & _)]; [|discriminate].
    destruct (careful_write _ _ G2) as [_ Kt]. inversion G1 as [|c0 b0 k0 ins0 out0 ok0 G1' Ec Eb Ei Ew Ek| |]; subst.
    set (ws' := fun j => if Nat.eqb j (pw i) then out0 else ws j).
    destruct (push_same s (pw i) b) as (P1 & P2 & P3).
    assert (Fd : forall j c, feeds (m_push H K s (pw i) b) ws' j c = feeds s ws j c).
    { intros j c. unfold feeds. destruct (al j c) eqn:A; [|reflexivity]. f_equal. destruct (from j c) as [k'|] eqn:F; [|exact P2]. rewrite content_push. unfold ws'.
      destruct (Nat.eqb_spec k' (pw i)) as [->|]; [|reflexivity]. rewrite <- Ew, <- app_assoc. reflexivity. }
    assert (Rd : exists rl, rstepsH (m_rd s) rl = Some (m_rd (m_push H K s (pw i) b)) /\ r_wopen (m_rd (m_push H K s (pw i) b)) = r_wopen (m_rd s) /\ r_sent (m_rd (m_push H K s (pw i) b)) ++ ws' K = out).
    { pose proof (v_sent _ _ _ I) as Sent. unfold m_push. destruct (Nat.eqb_spec (pw i) K) as [X|X].
      - apply Hinj in X; [|lia|lia]. subst i. exists [LFeed [b]]. cbn [rsteps m_rd with_pend r_wopen r_sent]. rewrite rstep_feed by (rewrite (v_wopen _ _ _ I); unfold m_alive; now rewrite E0).
        split; [reflexivity|]. split; [reflexivity|]. unfold ws'. rewrite Nat.eqb_refl, <- app_assoc. cbn [List.app]. now rewrite Ew.
      - exists []. cbn [rsteps m_rd]. split; [reflexivity|]. split; [reflexivity|]. unfold ws'. destruct (Nat.eqb_spec K (pw i)); [congruence|exact Sent]. }
    destruct Rd as (rl & Rd & Wo & Se). exists ws', c0. split; [|split; [lia|now exists rl]].
    apply (go_on s ws cs i (MWrites b k)); auto.
    - exact (RI_steps rl _ _ (v_rd _ _ _ I) Rd).
    - rewrite P2. apply (v_ext _ _ _ I).
    - intros j Hj Ne. unfold ws'. destruct (Nat.eqb_spec (pw j) (pw i)) as [X|]; [apply Hinj in X; lia|reflexivity].
    - unfold ws' at 2. rewrite Nat.eqb_refl. eapply mdoesn_ext; [exact G1'|]. intros c. symmetry. apply Fd.
    - intros HT. destruct (G3 HT) as (l & M & Z). exists l. split; [|exact Z]. inversion M; subst; [constructor|]. eapply mreads_ext; [eassumption|]. intros c. symmetry. apply Fd.
  Qed.

  (** Reading: a byte of file [c], or its end. *)
  Lemma go_read s ws cs i c k b r s1 : minv s ws cs -> nth i (m_procs s) None = Some (MReads c k) ->
    feeds s ws i c = Some (b :: r) -> feeds s1 ws i c = Some r ->
    (forall j d, (j, d) <> (i, c) -> feeds s1 ws j d = feeds s ws j d) ->
    m_procs s1 = m_procs s -> m_rd s1 = m_rd s -> m_ok s1 = m_ok s -> (E -> m_in s1 = []) ->
    mgoes s (m_becomes H s1 i (k (Some b))) ws cs i.
  Proof.
    intros I E0 F0 F1 Fo P1 P2 P3 Ex.
    destruct (v_live _ _ _ I i _ E0) as [(G1 & G2 & G3)|(_ & B2 & _)]; [|discriminate].
    assert (Fi : forall d, rest_of (feeds s ws i) c r d = feeds s1 ws i d).
    { intros d. unfold rest_of. destruct (chan_eqb_spec d c) as [->|Ne]; [now symmetry|]. symmetry. apply Fo. congruence. }
    assert (G1' : exists c0, mdoesn c0 (k (Some b)) (feeds s1 ws i) (ws (pw i)) (oks i) /\ c0 < cs i).
    { inversion G1 as [| |c0 c1 k0 b0 r0 ins0 out0 ok0 F D|c0 c1 k0 ins0 out0 ok0 F D]; subst; rewrite F in F0; [|discriminate]. injection F0 as -> ->.
      exists c0. split; [|lia]. eapply mdoesn_ext; [exact D|exact Fi]. }
    destruct G1' as (c0 & G1' & Lt). exists ws, c0. split; [|split; [exact Lt|exists []; cbn; now rewrite P2]].
    apply (go_on s ws cs i (MReads c k)); auto.
    - rewrite P2. apply (v_rd _ _ _ I).
    - rewrite P2. apply (v_sent _ _ _ I).
    - now rewrite P2.
    - intros j d Ne. apply Fo. congruence.
    - eapply careful_read; eauto.
    - intros HT. destruct (G3 HT) as (l & M & Z). inversion M as [| |c1 k0 b0 r0 ins0 l0 F D|c1 k0 ins0 l0 l' F Sub D]; subst; [exists []; split; [constructor|exact Z]| |]; rewrite F in F0; [|discriminate].
      injection F0 as -> ->. exists l. split; [|exact Z]. eapply mreads_ext; [exact D|exact Fi].
  Qed.
  Lemma go_eof s ws cs i c k : minv s ws cs -> nth i (m_procs s) None = Some (MReads c k) -> feeds s ws i c = Some [] ->
    (forall j, from i c = Some (pw j) -> j <= n -> m_dead s j) -> mgoes s (m_becomes H s i (k None)) ws cs i.
  Proof.
    intros I E0 F0 Dd. destruct (v_live _ _ _ I i _ E0) as [(G1 & G2 & G3)|(_ & B2 & _)]; [|discriminate].
    assert (G1' : exists c0, mdoesn c0 (k None) (feeds s ws i) (ws (pw i)) (oks i) /\ c0 < cs i).
    { inversion G1 as [| |c0 c1 k0 b0 r0 ins0 out0 ok0 F D|c0 c1 k0 ins0 out0 ok0 F D]; subst; rewrite F in F0; [discriminate|]. exists c0. split; [exact D|lia]. }
    destruct G1' as (c0 & G1' & Lt). exists ws, c0. split; [|split; [exact Lt|now exists []]].
    apply (go_on s ws cs i (MReads c k)); auto.
    - apply (v_rd _ _ _ I).
    - apply (v_sent _ _ _ I).
    - apply (v_ext _ _ _ I).
    - eapply careful_read; eauto.
    - intros HT. destruct (G3 HT) as (l & M & Z). inversion M as [| |c1 k0 b0 r0 ins0 l0 F D|c1 k0 ins0 l0 l' F Sub D]; subst; [exists []; split; [constructor|exact Z]| |]; rewrite F in F0; [discriminate|].
      exists l'. split; [exact D|]. intros d j U V W. destruct (Z d j U V W) as [X|X]; [|now right]. destruct (Sub d X) as [->|X']; [right; eauto|now left].
  Qed.
  (** A live process reads a file it has. *)
  Lemma reads_al s ws cs i c k : minv s ws cs -> nth i (m_procs s) None = Some (MReads c k) -> al i c = true.
  Proof.
    intros I E0. destruct (v_live _ _ _ I i _ E0) as [(G1 & _)|(_ & B2 & _)]; [|discriminate].
    assert (X : feeds s ws i c <> None) by (inversion G1; congruence). unfold feeds in X. now destruct (al i c).
  Qed.

  Lemma mproc_goes s ws cs i s' : minv s ws cs -> m_procH s i = Some s' -> mgoes s s' ws cs i.
  Proof.
    intros I. unfold m_proc. destruct (nth i (m_procs s) None) as [q|] eqn:E0; [|discriminate]. pose proof (nth_procs_le _ _ _ _ _ I E0) as Hi. pose proof (v_len _ _ _ I) as L.
    destruct q as [c k|b k|ok].
    - pose proof (reads_al s ws cs i c k I E0) as A. destruct (Hal i c A) as (_ & m & Em & Im & Nn). pose proof (from_K i c) as FK.
      assert (Ext : from i c = None -> match m_in s with
                    | b :: r => Some (m_becomes H (mkNest (m_procs s) (m_pipes s) r (m_rd s) (m_ok s)) i (k (Some b)))
                    | [] => Some (m_becomes H s i (k None))
                    end = Some s' -> mgoes s s' ws cs i).
      { intros F. destruct (m_in s) as [|b r] eqn:Em0; intros X; injection X as <-.
        - apply (go_eof s ws cs i c); auto; [unfold feeds; now rewrite A, F, Em0|]. intros j X. congruence.
        - assert (NE : ~ E) by (intros Z; apply (v_ext _ _ _ I) in Z; congruence). destruct Hext as [Z|Hx1]; [contradiction|].
          apply (go_read s ws cs i c k b r); auto; [unfold feeds; now rewrite A, F, Em0|unfold feeds; now rewrite A, F| |intros Z; contradiction].
          intros j d Ne. unfold feeds. destruct (al j d) eqn:A'; [|reflexivity]. destruct (from j d) eqn:F'; [reflexivity|]. destruct Ne. destruct (Hx1 j d i c A' A F' F). now subst. }
      assert (FE : from i c = match chan_ofd sees argvs i c with Some (OPipeR k) => if ours np k then Some k else None | _ => None end) by reflexivity.
      unfold chan_ofd in FE |- *. rewrite Em in FE |- *. destruct (see i m) as [o|] eqn:Eo; [|contradiction]. destruct o as [f|k0|k0|f fl|t]; try (apply Ext; exact FE).
      destruct (ours np k0) eqn:Ou; [|apply Ext; exact FE]. destruct (FK k0 A FE) as (j & Lj & -> & Nk). destruct (content s (pw j)) as [|b r] eqn:Ec.
      + destruct (writer s (m_procs s) (pw j)) eqn:Wr; [discriminate|]. intros X. injection X as <-. rewrite writer_is in Wr by (auto; lia).
        assert (Dj : m_dead s j) by (unfold m_alive in Wr; unfold m_dead; destruct (nth j (m_procs s) None); [discriminate|reflexivity]).
        apply (go_eof s ws cs i c); auto.
        * unfold feeds. rewrite A, FE, Ec. destruct (v_dead _ _ _ I j ltac:(lia) Dj) as [->|[_ Rg]]; [reflexivity|]. specialize (Rg i c A FE). unfold m_dead in Rg. congruence.
        * intros j' X Hj'. rewrite FE in X. injection X as X. apply Hinj in X; [|lia|lia]. now subst.
      + intros X. injection X as <-. destruct (pop_same s (pw j) Nk) as (Q1 & Q2 & Q3 & Q4). apply (go_read s ws cs i c k b (r ++ ws (pw j))); auto.
        * unfold feeds. now rewrite A, FE, Ec.
        * unfold feeds. rewrite A, FE, content_pop, Nat.eqb_refl, Ec by exact Nk. reflexivity.
        * intros j' d Ne. unfold feeds. destruct (al j' d) eqn:A'; [|reflexivity]. rewrite Q3. destruct (from j' d) as [k'|] eqn:F'; [|reflexivity]. rewrite content_pop by exact Nk.
          destruct (Nat.eqb_spec k' (pw j)) as [->|]; [|reflexivity]. destruct Ne. destruct (Huniq j' d i c _ A' A F' FE). now subst.
        * rewrite Q3. apply (v_ext _ _ _ I).
    - rewrite (Hout i Hi). assert (Ou : ours np (pw i) = true) by (apply Nat.leb_le, Hpw; exact Hi). rewrite Ou. destruct (reader s (pw i)) eqn:Rn; cbn [negb].
      + destruct (Nat.ltb _ _); [|discriminate]. intros X. injection X as <-. now apply go_write.
      + intros X. injection X as <-. eapply go_epipe; eauto.
    - intros X. injection X as <-. now apply go_exit.
  Qed.

  Lemma minv_read s ws cs rl r : minv s ws cs -> reader_only rl -> rstepH (m_rd s) rl = Some r -> minv (mkNest (m_procs s) (m_pipes s) (m_in s) r (m_ok s)) ws cs.
  Proof.
    intros I O X. destruct (rstep_keeps _ _ _ _ _ _ _ _ _ O X) as [K1 K2].
    assert (Fd : forall j c, feeds (mkNest (m_procs s) (m_pipes s) (m_in s) r (m_ok s)) ws j c = feeds s ws j c).
    { intros j c. unfold feeds. destruct (al j c) eqn:A; [|reflexivity]. destruct (from j c) as [k|] eqn:F; [|reflexivity]. destruct (from_K j c k A F) as (j' & _ & _ & Nk).
      unfold m_content. destruct (Nat.eqb_spec k K); [contradiction|reflexivity]. }
    destruct I as [I1 I2 I3 I4 I5 I6 I7 I8 I9 I10]. constructor; cbn [m_procs m_rd m_in m_ok]; try assumption.
    - eapply RI_step; eauto.
    - now rewrite K1.
    - now rewrite K2.
    - intros i q Eq. destruct (I6 i q Eq) as [(G1 & G2 & G3)|B]; [left|right; exact B]. split; [|split; [exact G2|]].
      + eapply mdoesn_ext; [exact G1|]. intros c. symmetry. apply Fd.
      + intros HT. destruct (G3 HT) as (l & M & Z). exists l. split; [|exact Z]. eapply mreads_ext; [exact M|]. intros c. symmetry. apply Fd.
  Qed.
  Lemma m_step_read s l s' : m_stepH s l = Some s' -> proc_label l = false ->
    exists rl r, reader_only rl /\ rstepH (m_rd s) rl = Some r /\ s' = mkNest (m_procs s) (m_pipes s) (m_in s) r (m_ok s).
  Proof.
    unfold m_step. destruct (negb (m_may H s l)); [discriminate|]. destruct l as [i|m| | |ok]; [discriminate| | | |]; cbn [reader_label];
      (match goal with |- match ?e with _ => _ end = _ -> _ => destruct e as [r|] eqn:X; [|discriminate] end; intros Y; injection Y as <-; intros _;
       eexists _, r; split; [|split; [exact X|reflexivity]]; exact Logic.I).
  Qed.
  Lemma minv_step s ws cs l s' : minv s ws cs -> m_stepH s l = Some s' ->
    exists ws' cs', minv s' ws' cs' /\ total cs' n + (if proc_label l then 1 else 0) <= total cs n /\ exists rl, rstepsH (m_rd s) rl = Some (m_rd s').
  Proof.
    intros I X. destruct (proc_label l) eqn:Pl.
    - destruct l as [i| | | |]; try discriminate. assert (X' : m_procH s i = Some s') by exact X.
      assert (Hi : i <= n).
      { unfold m_proc in X'. destruct (nth i (m_procs s) None) eqn:Eq; [|discriminate]. eapply nth_procs_le; eauto. }
      destruct (mproc_goes s ws cs i s' I X') as (ws' & c & I' & Lt & R). exists ws', (upd cs i c). split; [exact I'|]. split; [|exact R].
      pose proof (total_upd cs i c n Hi Lt). lia.
    - destruct (m_step_read s l s' X Pl) as (rl & r & O & Er & ->). exists ws, cs. split; [eapply minv_read; eauto|]. split; [lia|].
      exists [rl]. cbn [rsteps m_rd]. now rewrite Er.
  Qed.
  Lemma m_steps_app a : forall s b, m_stepsH s (a ++ b) = match m_stepsH s a with Some s' => m_stepsH s' b | None => None end.
  Proof. induction a as [|l a IH]; intros r b; cbn [m_steps List.app]; [reflexivity|]. destruct (m_stepH r l); [apply IH|reflexivity]. Qed.
  Lemma minv_steps ls : forall s ws cs s', minv s ws cs -> m_stepsH s ls = Some s' ->
    exists ws' cs', minv s' ws' cs' /\ total cs' n + List.length (filter proc_label ls) <= total cs n /\ exists rl, rstepsH (m_rd s) rl = Some (m_rd s').
  Proof.
    induction ls as [|l ls IH]; intros s ws cs s' I; cbn [m_steps].
    - intros X. injection X as <-. exists ws, cs. split; [exact I|]. split; [cbn; lia|]. now exists [].
    - destruct (m_stepH s l) as [s1|] eqn:X; [|discriminate]. intros X2. destruct (minv_step s ws cs l s1 I X) as (ws1 & cs1 & I1 & T1 & rl & R).
      destruct (IH s1 ws1 cs1 s' I1 X2) as (ws2 & cs2 & I2 & T2 & rl2 & R2). exists ws2, cs2. split; [exact I2|]. split.
      + cbn [filter]. destruct (proc_label l); cbn [List.length]; lia.
      + exists (rl ++ rl2). now rewrite rsteps_app, R.
  Qed.
  Lemma minv_start h progs inp ws cs : RI (r_init H h) -> List.length progs = S n -> ws K = out -> (E -> inp = []) ->
    (forall i q, nth_error progs i = Some q ->
       mdoesn (cs i) q (feeds (m_start H h progs inp) ws i) (ws (pw i)) (oks i) /\ mcareful q /\
       (T -> exists l, mreads q (feeds (m_start H h progs inp) ws i) l /\ forall c j, al i c = true -> from i c = Some (pw j) -> In c l)) ->
    minv (m_start H h progs inp) ws cs.
  Proof.
    intros R L W Ex X.
    assert (Get : forall i q, nth i (map Some progs) None = Some q -> nth_error progs i = Some q).
    { clear. revert progs. intros progs i. revert progs. induction i as [|i IH]; intros [|p ps] q; cbn; try discriminate; auto. }
    assert (Live : forall i, i <= n -> nth i (map Some progs) None <> None).
    { intros i Hi. rewrite nth_indep with (d' := Some (MExits true)) by (rewrite map_length; lia). rewrite map_nth. discriminate. }
    constructor.
    - cbn. now rewrite map_length.
    - exact R.
    - exact W.
    - cbn [m_start m_rd r_init r_wopen m_procs]. unfold m_alive. specialize (Live n (le_n _)). destruct (nth n (map Some progs) None); [reflexivity|contradiction].
    - exact Ex.
    - intros i q Eq. apply Get in Eq. destruct (X i q Eq) as (X1 & X2 & X3). left. split; [exact X1|]. split; [exact X2|].
      intros HT. destruct (X3 HT) as (l & M & Z). exists l. split; [exact M|]. intros c j U V _. left. eauto.
    - intros i Hi D. exfalso. now apply (Live i Hi).
    - intros _ i Hi D. exfalso. now apply (Live i Hi).
    - intros i Hi D. exfalso. now apply (Live i Hi).
    - reflexivity.
  Qed.

  Hypothesis Hcap : 0 < cap.
  (** A live process whose pipe is empty, or has no reader: somebody can go on. *)
  Lemma can_go s ws cs : minv s ws cs -> forall i q, nth i (m_procs s) None = Some q -> content s (pw i) = [] \/ reader s (pw i) = false ->
    exists j s', m_procH s j = Some s'.
  Proof.
    intros I i. induction i as [i IH] using lt_wf_ind. intros q E0 P. pose proof (nth_procs_le _ _ _ _ _ I E0) as Hi. pose proof (v_len _ _ _ I) as L.
    destruct (m_procH s i) as [s'|] eqn:X; [eauto|]. unfold m_proc in X. rewrite E0 in X. destruct q as [c k|b k|ok]; [| |discriminate].
    - pose proof (reads_al s ws cs i c k I E0) as A. pose proof (from_K i c) as FK. unfold from in FK. destruct (ofdc i c) as [o|] eqn:Eo; [|discriminate].
      destruct o as [f|k0|k0|f fl|t]; try (destruct (m_in s); discriminate). destruct (ours np k0); [|destruct (m_in s); discriminate].
      destruct (FK k0 A eq_refl) as (j & Lj & -> & Nk). destruct (content s (pw j)) eqn:Ec; [|discriminate]. destruct (writer s (m_procs s) (pw j)) eqn:Wr; [|discriminate].
      rewrite writer_is in Wr by (auto; lia). unfold m_alive in Wr. destruct (nth j (m_procs s) None) as [qj|] eqn:Ej; [|discriminate]. apply (IH j Lj qj Ej). now left.
    - rewrite (Hout i Hi) in X. assert (Ou : ours np (pw i) = true) by (apply Nat.leb_le, Hpw; exact Hi). rewrite Ou in X. destruct P as [P|P]; [|rewrite P in X; discriminate].
      rewrite P in X. destruct (negb _); [discriminate|]. cbn [List.length] in X. destruct (Nat.ltb_spec 0 cap); [discriminate|lia].
  Qed.
  Lemma highest s ws cs : minv s ws cs -> (exists i, ~ m_dead s i) -> exists i q, nth i (m_procs s) None = Some q /\ forall j, i < j -> m_dead s j.
  Proof.
    intros I (i0 & N0).
    assert (G : forall m, (forall j, m < j -> m_dead s j) -> (exists i q, nth i (m_procs s) None = Some q /\ forall j, i < j -> m_dead s j) \/ forall j, m_dead s j).
    { induction m as [|m IH]; intros Dm.
      - destruct (nth 0 (m_procs s) None) as [q|] eqn:E0; [left; eauto|]. right. intros [|j]; [exact E0|apply Dm; lia].
      - destruct (nth (S m) (m_procs s) None) as [q|] eqn:E0; [left; eauto|]. apply IH. intros j Hj. destruct (Nat.eq_dec j (S m)) as [->|]; [exact E0|apply Dm; lia]. }
    destruct (G n) as [X|X]; [|exact X|exfalso; now apply N0].
    intros j Hj. unfold m_dead. apply nth_overflow. rewrite (v_len _ _ _ I). lia.
  Qed.
  Lemma can_step s ws cs : minv s ws cs -> r_pend (m_rd s) = [] -> (exists i, ~ m_dead s i) -> exists j s', m_procH s j = Some s'.
  Proof.
    intros I P Nd. destruct (highest s ws cs I Nd) as (i & q & E0 & D). apply (can_go s ws cs I i q E0). pose proof (nth_procs_le _ _ _ _ _ I E0) as Hi.
    destruct (Nat.eq_dec i n) as [->|Ne]; [left|right].
    - unfold m_content. now rewrite Nat.eqb_refl.
    - apply no_reader; [exact (v_len _ _ _ I)|lia|exact D].
  Qed.
  Notation drainsH := (drains H h_wants h_event h_next h_resume h_open).
  Hypothesis D1 : forall r, RI r -> r_pend r <> [] -> exists r', drainsH r r' /\ List.length (r_pend r') < List.length (r_pend r).
  Hypothesis D2 : forall r, RI r -> r_pend r = [] -> r_wopen r = false -> exists r', drainsH r r' /\ r_phase r' = PAtEof.
  Definition mgets (s s' : nest H) : Prop := exists ls, m_stepsH s ls = Some s'.
  Lemma mgets_refl s : mgets s s.
  Proof. now exists []. Qed.
  Lemma mgets_trans s s1 s2 : mgets s s1 -> mgets s1 s2 -> mgets s s2.
  Proof. intros (l1 & E1) (l2 & E2). exists (l1 ++ l2). now rewrite m_steps_app, E1. Qed.
  Lemma mgets_step s l s1 : m_stepH s l = Some s1 -> mgets s s1.
  Proof. intros X. exists [l]. cbn [m_steps]. now rewrite X. Qed.
  Lemma drains_nest s ws cs r' : minv s ws cs -> drainsH (m_rd s) r' ->
    minv (mkNest (m_procs s) (m_pipes s) (m_in s) r' (m_ok s)) ws cs /\ mgets s (mkNest (m_procs s) (m_pipes s) (m_in s) r' (m_ok s)).
  Proof.
    intros I (rl & F & X). revert s I X. induction F as [|l rl O F IH]; intros s I; cbn [rsteps].
    - intros X. injection X as <-. destruct s as [a b c d e]. cbn in *. split; [exact I|]. apply mgets_refl.
    - destruct (rstepH (m_rd s) l) as [r1|] eqn:X1; [|discriminate]. intros X2.
      assert (S1 : m_stepH s (to_n l) = Some (mkNest (m_procs s) (m_pipes s) (m_in s) r1 (m_ok s))).
      { destruct l; cbn in O; try contradiction; unfold m_step; cbn [to_n reader_label m_may negb]; now rewrite X1. }
      destruct (IH _ (minv_read s ws cs l r1 I (reader_step_only _ O) X1) X2) as [I' El]. split; [exact I'|].
      eapply mgets_trans; [eapply mgets_step; exact S1|exact El].
  Qed.
  Lemma empties k : forall s ws cs, minv s ws cs -> List.length (r_pend (m_rd s)) <= k ->
    exists s', mgets s s' /\ minv s' ws cs /\ r_pend (m_rd s') = [] /\ m_procs s' = m_procs s.
  Proof.
    induction k as [k IH] using lt_wf_ind. intros s ws cs I Hk. destruct (r_pend (m_rd s)) as [|b0 r0] eqn:Ep; [exists s; auto using mgets_refl|].
    destruct (D1 _ (v_rd _ _ _ I)) as (r' & Dr & Lt); [congruence|]. destruct (drains_nest s ws cs r' I Dr) as [I' G]. rewrite Ep in Lt. cbn [List.length] in Lt, Hk.
    destruct (IH (List.length (r_pend r')) ltac:(lia) _ ws cs I' (le_n _)) as (s2 & G2 & I2 & P2 & Q2). exists s2. split; [eapply mgets_trans; eassumption|]. auto.
  Qed.
  Lemma all_die k : forall s ws cs, minv s ws cs -> total cs n <= k -> exists s' ws' cs', mgets s s' /\ minv s' ws' cs' /\ (forall i, m_dead s' i) /\ r_pend (m_rd s') = [].
  Proof.
    induction k as [k IH] using lt_wf_ind. intros s ws cs I Hk. destruct (empties _ s ws cs I (le_n _)) as (s1 & G1 & I1 & P1 & Q1).
    destruct (forallb (fun p : option mprog => match p with Some _ => false | None => true end) (m_procs s1)) eqn:Fa.
    - exists s1, ws, cs. split; [exact G1|]. split; [exact I1|]. split; [|exact P1]. intros i. unfold m_dead. destruct (nth i (m_procs s1) None) as [q|] eqn:Eq; [|reflexivity].
      rewrite forallb_forall in Fa. assert (Hin : In (Some q) (m_procs s1)) by (rewrite <- Eq; apply nth_In; eapply nth_some_lt; eauto). specialize (Fa _ Hin). discriminate.
    - destruct (can_step s1 ws cs I1 P1) as (j & s2 & X).
      { assert (Ex : exists p, In p (m_procs s1) /\ p <> None).
        { clear - Fa. induction (m_procs s1) as [|p l IHl]; [discriminate|]. cbn in Fa. destruct p as [q|]; [exists (Some q); split; [now left|discriminate]|].
          destruct (IHl Fa) as (p & A & B). exists p. split; [now right|exact B]. }
        destruct Ex as (p & A & B). apply (In_nth _ _ None) in A as (i & Hi & Ei). exists i. unfold m_dead. congruence. }
      assert (Hj : j <= n). { unfold m_proc in X. destruct (nth j (m_procs s1) None) eqn:Eq; [|discriminate]. eapply nth_procs_le; eauto. }
      destruct (mproc_goes s1 ws cs j s2 I1 X) as (ws2 & c & I2 & Lt & _). pose proof (total_upd cs j c n Hj Lt) as Lt2.
      destruct (IH (total (upd cs j c) n) ltac:(lia) s2 ws2 _ I2 (le_n _)) as (s3 & ws3 & cs3 & G3 & R3). exists s3, ws3, cs3. split; [|exact R3].
      eapply mgets_trans; [exact G1|]. eapply mgets_trans; [|exact G3]. apply (mgets_step s1 (NProc j)). exact X.
  Qed.
  Lemma m_finishes s ws cs : minv s ws cs -> exists ls s', m_stepsH s ls = Some s' /\ ended (r_out (m_rd s')).
  Proof.
    intros I. destruct (all_die _ s ws cs I (le_n _)) as (s1 & ws1 & cs1 & G1 & I1 & Da & P1).
    destruct (D2 _ (v_rd _ _ _ I1) P1) as (r' & Dr & P).
    { rewrite (v_wopen _ _ _ I1). unfold m_alive. now rewrite Da. }
    destruct (drains_nest s1 ws1 cs1 r' I1 Dr) as [I2 G2]. destruct (mgets_trans _ _ _ G1 G2) as (ls & X).
    exists (ls ++ [NAtEof (m_ok s1)]). eexists. rewrite m_steps_app, X. cbn [m_steps]. unfold m_step. cbn [m_may reader_label m_procs m_ok].
    assert (Fa : forallb (fun p : option mprog => match p with Some _ => false | None => true end) (m_procs s1) = true).
    { apply forallb_forall. intros p Hp. apply (In_nth _ _ None) in Hp as (i & Hi & Ei). rewrite Da in Ei. now subst p. }
    rewrite Fa. unfold rstep. cbn [m_rd]. rewrite P, Bool.eqb_reflx. cbn [andb negb]. split; [reflexivity|]. cbn. unfold ended. rewrite !in_app_iff. destruct (m_ok s1); cbn; auto.
  Qed.
End Graph.

Section MEnded.
  Variable H : Type.
  Variable h_wants : H -> bool.
  Variable h_event : H -> bytes -> H * bool.
  Variable h_next h_resume : H -> H * outcome.
  Variable h_open : H -> bool.
  Variables np cap : nat.
  Variable fds : list nat.
  Variable sees : list (nat -> option ofd).
  Variable argvs : list (list aword).
  Variable shell : tab.
  Variables x K : nat.
  Notation m_stepH := (m_step H h_wants h_event h_next h_resume h_open np cap fds sees argvs shell x K).
  Notation m_stepsH := (m_steps H h_wants h_event h_next h_resume h_open np cap fds sees argvs shell x K).
  Definition m_end (s : nest H) : Prop :=
    (ended (r_out (m_rd s)) -> forall i, nth i (m_procs s) None = None) /\
    (In GStop (r_out (m_rd s)) -> m_ok s = true) /\ (In GFailed (r_out (m_rd s)) -> m_ok s = false).
  Lemma m_proc_out s i s' : m_proc H h_open np cap fds sees argvs shell x K s i = Some s' -> r_out (m_rd s') = r_out (m_rd s).
  Proof.
    unfold m_proc, m_becomes, m_gone, m_push, m_pop. intros E.
    repeat match type of E with context [match ?e with _ => _ end] => destruct e end; try discriminate; injection E as <-; reflexivity.
  Qed.
  Lemma m_end_step s l s' : m_end s -> m_stepH s l = Some s' -> m_end s'.
  Proof.
    intros (G & G1 & G2). unfold m_step. destruct (negb (m_may H s l)) eqn:M; [discriminate|]. apply negb_false_iff in M.
    destruct l as [i|m| | |ok]; cbn [reader_label].
    - intros E. assert (No : ~ ended (r_out (m_rd s))) by (intros X; unfold m_proc in E; rewrite (G X i) in E; discriminate).
      pose proof (m_proc_out s i s' E) as O. unfold m_end, ended in *. rewrite O. split; [intros X; now destruct No|]. split; intros X; destruct No; auto.
    - unfold rstep. destruct (readable H h_open (m_rd s)); [|discriminate]. destruct (h_wants _); [destruct (read_ok H (m_rd s) m); [|discriminate]|];
        destruct (h_event _ _) as [h w]; intros E; injection E as <-; (split; [exact G|split; [exact G1|exact G2]]).
    - unfold rstep. destruct (r_phase (m_rd s)); try discriminate. intros E. injection E as <-. split; [|split]; cbn [m_rd m_ok m_procs]; intros X.
      + apply G. now apply after_no_end in X.
      + apply G1. apply after_out in X; auto.
      + apply G2. apply after_out in X; auto.
    - unfold rstep. destruct (r_phase (m_rd s)); try discriminate. intros E. injection E as <-. split; [|split]; cbn [m_rd m_ok m_procs]; intros X.
      + apply G. now apply after_no_end in X.
      + apply G1. apply after_out in X; auto.
      + apply G2. apply after_out in X; auto.
    - unfold rstep. destruct (r_phase (m_rd s)); try discriminate. intros E. injection E as <-. cbn [m_may] in M. apply andb_prop in M as [M M2]. apply eqb_prop in M2.
      unfold m_end. cbn [m_procs m_rd m_ok r_out]. split; [|split].
      + intros _ i. rewrite forallb_forall in M. destruct (nth i (m_procs s) None) as [q|] eqn:Ei; [|reflexivity]. pose proof (nth_some_lt _ _ _ Ei) as Hi.
        assert (Hin : In (Some q) (m_procs s)) by (rewrite <- Ei; now apply nth_In). specialize (M _ Hin). discriminate.
      + rewrite in_app_iff. intros [X|[X|[]]]; [auto|]. rewrite <- M2. destruct ok; [reflexivity|discriminate].
      + rewrite in_app_iff. intros [X|[X|[]]]; [auto|]. rewrite <- M2. destruct ok; [discriminate|reflexivity].
  Qed.
  Lemma m_end_steps ls : forall s s', m_end s -> m_stepsH s ls = Some s' -> m_end s'.
  Proof.
    induction ls as [|l ls IH]; intros s s' G; cbn [m_steps]; [intros E; now injection E as <-|].
    destruct (m_stepH s l) as [s1|] eqn:E; [|discriminate]. apply IH. now apply (m_end_step s l).
  Qed.
  Lemma m_end_start h progs inp : m_end (m_start H h progs inp).
  Proof. split; [intros [[]|[]]|split; intros []]. Qed.
End MEnded.
