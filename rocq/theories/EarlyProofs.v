(** Lemmas for C113: a network some of whose pipe ends are held for a while. *)
From Verif Require Import Py RedirModel Os PerformModel PerformSpec RunModel RunSpec RunTopSpec IterModel IterSpec IterProofs NetModel NetSpec NetProofs EarlyModel.

Lemma set_nth_app1 {A} (l1 l2 : list A) : forall i v, i < List.length l1 -> set_nth (l1 ++ l2) i v = set_nth l1 i v ++ l2.
Proof. induction l1 as [|y l1 IH]; intros [|i] v Hi; cbn in *; try lia; [reflexivity|]. rewrite IH by lia. reflexivity. Qed.
Lemma set_nth_app2 {A} (l1 l2 : list A) : forall i v, set_nth (l1 ++ l2) (List.length l1 + i) v = l1 ++ set_nth l2 i v.
Proof. induction l1 as [|y l1 IH]; intros i v; cbn; [reflexivity|]. now rewrite IH. Qed.
Lemma some_live_app fds test : forall ps1 ss1 ps2 ss2, List.length ps1 = List.length ss1 ->
  some_live fds test (ps1 ++ ps2) (ss1 ++ ss2) = some_live fds test ps1 ss1 || some_live fds test ps2 ss2.
Proof.
  induction ps1 as [|p ps1 IH]; intros [|s ss1] ps2 ss2 E; cbn in E; try lia; [reflexivity|]. cbn [List.app some_live]. rewrite IH by lia. apply orb_assoc.
Qed.
(** Fewer processes, fewer holders. *)
Lemma some_live_less fds test : forall ps ss i, some_live fds test (set_nth ps i None) ss = true -> some_live fds test ps ss = true.
Proof.
  induction ps as [|p ps IH]; intros ss i; [destruct i; auto|]. destruct ss as [|s ss]; [destruct i; auto|]. destruct i as [|i]; cbn [set_nth some_live].
  - cbn [orb]. intros ->. apply orb_true_r.
  - rewrite !orb_true_iff. intros [X|X]; [now left|right; eauto].
Qed.
Lemma some_live_none fds test : forall ps ss, (forall p, In p ps -> p = None) -> some_live fds test ps ss = false.
Proof. induction ps as [|p ps IH]; intros [|s ss] A; auto. cbn [some_live]. rewrite (A p (or_introl eq_refl)), IH; [reflexivity|]. intros q Hq. apply A. now right. Qed.
Definition setw {H} (r : rstate H) (w : bool) : rstate H := mkR (r_h r) (r_pend r) w (r_phase r) (r_out r) (r_sent r).
Definition alive (qs : list (option prog)) : nat := List.length (filter (fun q => match q with Some _ => true | None => false end) qs).
Lemma alive_gone : forall qs i q, nth i qs None = Some q -> S (alive (set_nth qs i None)) = alive qs.
Proof.
  unfold alive. induction qs as [|q0 qs IH]; intros [|i] q E; cbn in E; try discriminate.
  - subst q0. reflexivity.
  - cbn [set_nth filter]. specialize (IH i q E). destruct q0; cbn [List.length]; lia.
Qed.

Section Early.
  Variable H : Type.
  Variable h_wants : H -> bool.
  Variable h_event : H -> bytes -> H * bool.
  Variable h_next h_resume : H -> H * outcome.
  Variable h_open : H -> bool.
  Variables np cap : nat.
  Variable fds : list nat.
  Variable sees : list (nat -> option ofd).
  Variable shell : tab.
  Variables x n : nat.
  Notation K := (np + n).
  Notation see i := (nth i sees (fun _ => None)).
  Notation rst := (rstep H h_wants h_event h_next h_resume h_open true).
  Notation rsts := (rsteps H h_wants h_event h_next h_resume h_open true).
  Notation lstep := (nstep H h_wants h_event h_next h_resume h_open np cap fds sees shell x K).
  Notation lsteps := (nsteps H h_wants h_event h_next h_resume h_open np cap fds sees shell x K).
  Notation lproc := (proc_step H h_open np cap fds sees shell x K).
  Hypothesis Hlen : List.length sees = S n.
  Hypothesis Hin0 : forall k, see 0 0 = Some (OPipeR k) -> k < np.
  Hypothesis HinS : forall j, j < n -> see (S j) 0 = Some (OPipeR (np + j)).
  Hypothesis Hout : forall i, i <= n -> see i 1 = Some (OPipeW (np + i)).
  Hypothesis Hw : forall i m k, i <= n -> In m fds -> np <= k -> see i m = Some (OPipeW k) -> k = np + i.
  Hypothesis Hr : forall i m k, i <= n -> In m fds -> np <= k -> see i m = Some (OPipeR k) -> exists j, i = S j /\ k = np + j.
  Hypothesis H0 : In 0 fds.
  Hypothesis H1 : In 1 fds.
  Hypothesis Hsw : forall m k, refers shell m = Some (OPipeW k) -> k < np.
  Hypothesis Hsr : forall m k, refers shell m = Some (OPipeR k) -> np <= k -> m = x.
  Hypothesis Hx : refers shell x = Some (OPipeR K).
  Variable RI : rstate H -> Prop.
  Hypothesis RI_step : forall r l r', RI r -> rst r l = Some r' -> RI r'.
  Hypothesis RI_open : forall r, RI r -> h_open (r_h r) = false -> r_wopen r = false.
  Variable out : list N.
  Variable es : nat -> option bool.
  Variable okf : nat -> bool.
  Variables C T : Prop.
  Hypothesis Hes : es n <> None.
  Hypothesis HT : T -> forall i, i <= n -> es i <> None.
  Hypothesis Hokf : C -> forall i, es i = Some false -> okf i = false.
  Variable held : list ofd.
  Notation esees := (sees ++ map holds held).
  Notation estep := (nstep H h_wants h_event h_next h_resume h_open np cap fds esees shell x K).
  Notation esteps := (nsteps H h_wants h_event h_next h_resume h_open np cap fds esees shell x K).
  Notation eproc := (proc_step H h_open np cap fds esees shell x K).
  Notation invl := (inv H np sees n RI out es okf C T).
  Notation extra test qs := (some_live fds test qs (map holds held)).

  Definition lte (s : net H) (ps : list (option prog)) (pi : nat -> list N) : net H := mkN ps pi (n_in s) (setw (n_rd s) (live ps n)) (n_ok s).
  Record einv (s : net H) (ws : nat -> list N) (cs : nat -> nat) (ps qs : list (option prog)) (pi : nat -> list N) : Prop := {
    e_procs : n_procs s = ps ++ qs;
    e_lenq : List.length qs = List.length held;
    e_hold : forall i q, nth i qs None = Some q -> q = Exits true;
    e_agree : forall j, j < n -> live ps (S j) = true -> pi (np + j) = n_pipes s (np + j);
    e_rd : RI (n_rd s);
    e_wopen : r_wopen (n_rd s) = live ps n || extra (is_w K) qs;
    e_inv : invl (lte s ps pi) ws cs }.
  Lemma e_len s ws cs ps qs pi : einv s ws cs ps qs pi -> List.length ps = S n.
  Proof. intros I. exact (i_len _ _ _ _ _ _ _ _ _ _ _ _ _ (e_inv _ _ _ _ _ _ I)). Qed.
  Lemma esee i : i <= n -> nth i esees (fun _ => None) = see i.
  Proof. intros Hi. apply app_nth1. lia. Qed.
  (** Who is left, in the two networks. *)
  Lemma ewriter s ps qs i : List.length ps = S n -> i <= n ->
    writer_left H h_open fds esees shell x s (ps ++ qs) (np + i) = live ps i || extra (is_w (np + i)) qs.
  Proof.
    intros Lp Hi. pose proof (writer_spec H h_open np fds sees shell x n Hlen Hout Hw H1 Hsw s ps i Hi) as W. unfold writer_left in *.
    rewrite some_live_app by lia. rewrite <- W, (shell_has_w H h_open np sees shell x n Hlen Hsw), !orb_false_r. reflexivity.
  Qed.
  Lemma ereader s ps qs i : n_procs s = ps ++ qs -> List.length ps = S n -> i <= n ->
    reader_left H h_open fds esees shell x s (np + i) = (if Nat.eqb i n then h_open (r_h (n_rd s)) else live ps (S i)) || extra (is_r (np + i)) qs.
  Proof.
    intros Ep Lp Hi. pose proof (reader_spec H h_open np fds sees shell x n Hlen HinS Hr H0 Hsr Hx (lte s ps (n_pipes s)) i Hi) as W. unfold reader_left in *. rewrite Ep.
    rewrite some_live_app by lia. cbn [lte n_procs n_rd setw r_h] in W. rewrite <- W. unfold shell_has. cbn [n_rd setw r_h lte].
    destruct (some_live fds (is_r (np + i)) ps sees), (extra (is_r (np + i)) qs); cbn [orb]; rewrite ?orb_true_r, ?orb_false_r; reflexivity.
  Qed.
  Lemma nth_e (ps qs : list (option prog)) i : i < List.length ps -> nth i (ps ++ qs) None = nth i ps None.
  Proof. apply app_nth1. Qed.
  Lemma live_set ps i p : live ps i = true -> live (set_nth ps i (Some p)) n = live ps n.
  Proof.
    intros A. unfold live in *. destruct (nth i ps None) eqn:E; [|discriminate]. rewrite nth_set_nth by (eapply nth_some_lt; exact E). destruct (Nat.eqb_spec n i) as [->|]; [now rewrite E|reflexivity].
  Qed.
  Lemma live_set_any ps i p j : live ps i = true -> live (set_nth ps i (Some p)) j = live ps j.
  Proof.
    intros A. unfold live in *. destruct (nth i ps None) eqn:E; [|discriminate]. rewrite nth_set_nth by (eapply nth_some_lt; exact E). destruct (Nat.eqb_spec j i) as [->|]; [now rewrite E|reflexivity].
  Qed.
  Lemma lte_becomes s ps pi i p : live ps i = true -> lte s (set_nth ps i (Some p)) pi = becomes H (lte s ps pi) i p.
  Proof. intros A. unfold lte, becomes. cbn [n_procs n_pipes n_in n_rd n_ok]. now rewrite live_set. Qed.

  Definition busy_e : Prop := C /\ forall i, i <= n -> es i <> None.
  (** What is to be shown of a step. *)
  Definition egoes (s s' : net H) (cs : nat -> nat) (qs : list (option prog)) (k : nat) : Prop :=
    exists ws' cs' ps' qs' pi', einv s' ws' cs' ps' qs' pi' /\ (busy_e -> total cs' n + alive qs' + k <= total cs n + alive qs) /\ exists rl, rsts (n_rd s) rl = Some (n_rd s').

  (** A step that the other network can make too. *)
  Lemma same_step s ws cs ps qs pi i p s' pi' : einv s ws cs ps qs pi -> live ps i = true -> i <= n ->
    lproc (lte s ps pi) i = Some (lte s' (set_nth ps i (Some p)) pi') ->
    n_procs s' = set_nth ps i (Some p) ++ qs -> (forall j, j < n -> live ps (S j) = true -> pi' (np + j) = n_pipes s' (np + j)) ->
    n_rd s' = n_rd s \/ (exists b, rst (n_rd s) (LFeed [b]) = Some (n_rd s') /\ r_wopen (n_rd s') = r_wopen (n_rd s)) -> egoes s s' cs qs 1.
  Proof.
    intros I Lv Hi E Ep Ag Rd.
    destruct (inv_nstep H h_wants h_event h_next h_resume h_open np cap fds sees shell x n Hlen Hin0 HinS Hout Hw Hr H0 H1 Hsw Hsr Hx RI RI_step RI_open out es okf C T Hes HT Hokf
      _ ws cs (NProc i) _ (e_inv _ _ _ _ _ _ I) E) as (ws' & cs' & I' & Tt & _). cbn [proc_label] in Tt.
    exists ws', cs', (set_nth ps i (Some p)), qs, pi'. split; [|split; [intros B; specialize (Tt B); lia|]].
    - constructor; auto; [apply I|apply I| | |].
      + intros j Hj Lj. rewrite live_set_any in Lj by exact Lv. now apply Ag.
      + destruct Rd as [->|(b & R & _)]; [apply I|]. eapply RI_step; [apply I|exact R].
      + rewrite live_set by exact Lv. rewrite <- (e_wopen _ _ _ _ _ _ I). destruct Rd as [->|(b & _ & W)]; [reflexivity|exact W].
    - destruct Rd as [->|(b & R & _)]; [now exists []|]. exists [LFeed [b] ]. cbn [rsteps]. now rewrite R.
  Qed.
  Lemma e_proc s ws cs ps qs pi i s' : einv s ws cs ps qs pi -> i <= n -> eproc s i = Some s' -> egoes s s' cs qs 1.
  Proof.
    intros I Hi E. pose proof (e_len _ _ _ _ _ _ I) as Lp. pose proof (e_procs _ _ _ _ _ _ I) as Ep. assert (Lt : i < List.length ps) by lia.
    assert (Nq : nth i (n_procs s) None = nth i ps None) by (rewrite Ep; now apply nth_e). unfold proc_step in E. rewrite Nq in E. clear Nq. destruct (nth i ps None) as [q|] eqn:Eq; [|discriminate].
    assert (Lv : live ps i = true) by (unfold live; now rewrite Eq). rewrite esee in E by exact Hi.
    assert (Pb : forall s1 p, n_procs s1 = n_procs s -> n_procs (becomes H s1 i p) = set_nth ps i (Some p) ++ qs) by (intros s1 p X; cbn; rewrite X, Ep; now apply set_nth_app1).
    destruct q as [f|b f|ok].
    - destruct i as [|j].
      + assert (Go : forall o, see 0 0 = Some o -> (forall k, o = OPipeR k -> k < np) ->
          match n_in s with
          | b :: r => Some (becomes H (mkN (n_procs s) (n_pipes s) r (n_rd s) (n_ok s)) 0 (f (Some b)))
          | [] => Some (becomes H s 0 (f None)) end = Some s' -> egoes s s' cs qs 1).
        { intros o E0 Hk. destruct (n_in s) as [|b r] eqn:En; intros X; injection X as <-; eapply (same_step s ws cs ps qs pi 0 _ _ pi I Lv Hi); try (now left); try (apply Pb; reflexivity); try (intros j Hj Lj; exact (e_agree _ _ _ _ _ _ I j Hj Lj)).
          - rewrite lte_becomes by exact Lv. unfold proc_step. cbn [lte n_procs n_in]. rewrite Eq, E0, En. unfold lte. cbn [n_in becomes n_rd n_ok]. rewrite En. destruct o as [?|k|?|? ?|?]; try reflexivity.
            unfold ours. specialize (Hk k eq_refl). destruct (Nat.leb_spec np k); [lia|]. reflexivity.
          - unfold proc_step. cbn [lte n_procs n_in]. rewrite Eq, E0, En. unfold lte. cbn [n_in becomes n_rd n_ok n_pipes n_procs setw]. rewrite live_set by exact Lv. destruct o as [?|k|?|? ?|?]; try reflexivity.
            unfold ours. specialize (Hk k eq_refl). destruct (Nat.leb_spec np k); [lia|]. reflexivity. }
        revert E. case_eq (see 0 0); [intros o E0 E|intros E0 E].
        2: { injection E as <-. eapply (same_step s ws cs ps qs pi 0 (f None) _ pi I Lv Hi); [|apply Pb; reflexivity|intros j Hj Lj; exact (e_agree _ _ _ _ _ _ I j Hj Lj)|now left].
             change (lte (becomes H s 0 (f None))) with (lte s). rewrite lte_becomes by exact Lv. unfold proc_step. cbn [lte n_procs]. rewrite Eq, E0. reflexivity. }
        destruct o as [?|k|?|? ?|?]; try (apply (Go _ E0); [discriminate|exact E]).
        assert (Ek : k < np) by now apply Hin0. unfold ours in E. destruct (Nat.leb_spec np k); [lia|]. apply (Go _ E0); [intros k' X; injection X as <-; exact Ek|exact E].
      + rewrite (HinS j) in E by lia. rewrite (ours_plus np sees n Hlen) in E. unfold content in E. rewrite (K_not_pipe np sees n Hlen j) in E by lia.
        assert (Ag : pi (np + j) = n_pipes s (np + j)) by (apply (e_agree _ _ _ _ _ _ I); [lia|exact Lv]).
        destruct (n_pipes s (np + j)) as [|b r] eqn:En.
        * rewrite Ep, ewriter in E by (exact Lp || lia). destruct (live ps j) eqn:Lj; [discriminate|]. cbn [orb] in E. destruct (extra (is_w (np + j)) qs); [discriminate|]. injection E as <-.
          eapply (same_step s ws cs ps qs pi (S j) (f None) _ pi I Lv Hi); [|apply Pb; reflexivity|intros j' Hj Lj'; exact (e_agree _ _ _ _ _ _ I j' Hj Lj')|now left].
          change (lte (becomes H s (S j) (f None))) with (lte s). rewrite lte_becomes by exact Lv. unfold proc_step. cbn [lte n_procs]. rewrite Eq, HinS, (ours_plus np sees n Hlen) by lia. unfold content. rewrite (K_not_pipe np sees n Hlen j) by lia. cbn [lte n_pipes]. rewrite Ag.
          rewrite (writer_spec H h_open np fds sees shell x n Hlen Hout Hw H1 Hsw) by lia. rewrite Lj. reflexivity.
        * injection E as <-. unfold pop. rewrite (K_not_pipe np sees n Hlen j) by lia.
          eapply (same_step s ws cs ps qs pi (S j) (f (Some b)) _ (fun j' => if Nat.eqb j' (np + j) then tl (pi (np + j)) else pi j') I Lv Hi); [|apply Pb; reflexivity| |now left].
          -- unfold proc_step. cbn [lte n_procs]. rewrite Eq, HinS, (ours_plus np sees n Hlen) by lia. unfold content. rewrite (K_not_pipe np sees n Hlen j) by lia. cbn [lte n_pipes]. rewrite Ag. unfold pop. rewrite (K_not_pipe np sees n Hlen j) by lia.
             unfold lte, becomes. cbn [n_procs n_pipes n_in n_rd n_ok setw r_h r_pend r_wopen r_phase r_out r_sent]. rewrite live_set by exact Lv. rewrite Ag. reflexivity.
          -- intros j' Hj Lj'. cbn [becomes n_pipes]. destruct (Nat.eqb_spec (np + j') (np + j)); [now rewrite Ag, En|exact (e_agree _ _ _ _ _ _ I j' Hj Lj')].
    - rewrite Hout, (ours_plus np sees n Hlen) in E by lia. rewrite (ereader s ps qs i Ep Lp Hi) in E.
      destruct (negb _) eqn:Er.
      + apply negb_true_iff in Er. apply orb_false_iff in Er as [Er _]. injection E as <-.
        eapply (same_step s ws cs ps qs pi i (f false) _ pi I Lv Hi); [|apply Pb; reflexivity|intros j Hj Lj; exact (e_agree _ _ _ _ _ _ I j Hj Lj)|now left].
        change (lte (becomes H s i (f false))) with (lte s). rewrite lte_becomes by exact Lv. unfold proc_step. cbn [lte n_procs]. rewrite Eq, Hout, (ours_plus np sees n Hlen) by lia.
        rewrite (reader_spec H h_open np fds sees shell x n Hlen HinS Hr H0 Hsr Hx) by lia. cbn [lte n_rd setw r_h n_procs]. rewrite Er. reflexivity.
      + apply negb_false_iff in Er. destruct (Nat.ltb_spec (List.length (content H K s (np + i))) cap) as [Lc|]; [|discriminate]. injection E as <-.
        destruct (if Nat.eqb i n then h_open (r_h (n_rd s)) else live ps (S i)) eqn:Elr.
        * (* somebody is there to read it *)
          unfold push, content in *. destruct (Nat.eqb_spec (np + i) K) as [Ei|Ne].
          -- assert (i = n) as -> by lia. assert (Wo : r_wopen (n_rd s) = true) by (rewrite (e_wopen _ _ _ _ _ _ I), Lv; reflexivity).
             eapply (same_step s ws cs ps qs pi n (f true) _ pi I Lv Hi); [|apply Pb; reflexivity|intros j Hj Lj; exact (e_agree _ _ _ _ _ _ I j Hj Lj)|].
             ++ unfold proc_step. cbn [lte n_procs]. rewrite Eq, Hout, (ours_plus np sees n Hlen) by lia. rewrite (reader_spec H h_open np fds sees shell x n Hlen HinS Hr H0 Hsr Hx) by lia. cbn [lte n_rd setw r_h n_procs]. rewrite Elr. cbn [negb].
                unfold content. rewrite Nat.eqb_refl. cbn [lte n_rd setw r_pend]. apply Nat.ltb_lt in Lc. rewrite Lc. unfold push. rewrite Nat.eqb_refl.
                unfold lte, becomes, with_pend. cbn [n_procs n_pipes n_in n_rd n_ok setw r_h r_pend r_wopen r_phase r_out r_sent]. rewrite live_set by exact Lv. reflexivity.
             ++ right. exists b. split; [|reflexivity]. now apply rstep_feed.
          -- assert (Hn : i < n) by lia. destruct (Nat.eqb_spec i n); [lia|].
             assert (Ag : pi (np + i) = n_pipes s (np + i)) by (apply (e_agree _ _ _ _ _ _ I); [lia|exact Elr]).
             eapply (same_step s ws cs ps qs pi i (f true) _ (fun j' => if Nat.eqb j' (np + i) then pi (np + i) ++ [b] else pi j') I Lv Hi); [|apply Pb; reflexivity| |now left].
             ++ unfold proc_step. cbn [lte n_procs]. rewrite Eq, Hout, (ours_plus np sees n Hlen) by lia. rewrite (reader_spec H h_open np fds sees shell x n Hlen HinS Hr H0 Hsr Hx) by lia. cbn [lte n_rd setw r_h n_procs].
                destruct (Nat.eqb_spec i n); [lia|]. rewrite Elr. cbn [negb]. unfold content. destruct (Nat.eqb_spec (np + i) K); [lia|]. cbn [lte n_pipes]. rewrite Ag. apply Nat.ltb_lt in Lc. rewrite Lc. unfold push.
                destruct (Nat.eqb_spec (np + i) K); [lia|]. unfold lte, becomes. cbn [n_procs n_pipes n_in n_rd n_ok setw r_h r_pend r_wopen r_phase r_out r_sent]. rewrite live_set by exact Lv. rewrite Ag. reflexivity.
             ++ intros j' Hj Lj'. cbn [becomes n_pipes]. destruct (Nat.eqb_spec (np + j') (np + i)); [now rewrite Ag|exact (e_agree _ _ _ _ _ _ I j' Hj Lj')].
        * (* only a holder is left: nobody will ever read it *)
          assert (Hn : i < n).
          { destruct (Nat.eqb_spec i n) as [->|]; [|lia]. apply (RI_open _ (e_rd _ _ _ _ _ _ I)) in Elr. rewrite (e_wopen _ _ _ _ _ _ I), Lv in Elr. discriminate. }
          destruct (Nat.eqb_spec i n); [lia|]. unfold push. destruct (Nat.eqb_spec (np + i) K); [lia|]. unfold live in Elr. destruct (nth (S i) ps None) eqn:Ed; [discriminate|].
          pose proof (e_inv _ _ _ _ _ _ I) as J.
          assert (Tf : ~ T). { intros t. pose proof (i_order _ _ _ _ _ _ _ _ _ _ _ _ _ J t i Hn Ed) as X. cbn [lte n_procs] in X. congruence. }
          assert (Hc : C -> heeds (okf i) (f true)) by (intros c; pose proof (i_care _ _ _ _ _ _ _ _ _ _ _ _ _ J c i _ Eq) as X; now apply heeds_writes in X as [_ X]).
          assert (Hl : C -> es i = None -> lively (f true) \/ (i < n /\ nth (S i) ps None = None /\ f true = Exits (okf i))).
          { intros c En. destruct (i_lively _ _ _ _ _ _ _ _ _ _ _ _ _ J c i _ Eq En) as [X|(_ & _ & X)]; [inversion X; auto|discriminate]. }
          assert (Fin : forall ws' c pi', invl (becomes H (lte s ps pi') i (f true)) ws' (upd cs i c) -> c <= cs i -> (C -> ws i <> [] \/ es i <> None -> c < cs i) ->
             (forall j, j < n -> live ps (S j) = true -> pi' (np + j) = pi (np + j)) ->
             egoes s (becomes H (mkN (n_procs s) (fun j => if j =? np + i then n_pipes s (np + i) ++ [b] else n_pipes s j) (n_in s) (n_rd s) (n_ok s)) i (f true)) cs qs 1).
          { intros ws' c pi' I' Le Lt' Ap. exists ws', (upd cs i c), (set_nth ps i (Some (f true))), qs, pi'. split; [|split; [|now exists [] ] ].
            - constructor; [apply Pb; reflexivity|apply I|apply I| |apply I| |].
              + intros j Hj Lj. rewrite live_set_any in Lj by exact Lv. rewrite Ap by assumption. cbn [becomes n_pipes]. destruct (Nat.eqb_spec (np + j) (np + i)) as [X|]; [|now apply I].
                assert (j = i) as -> by lia. unfold live in Lj. rewrite Ed in Lj. discriminate.
              + rewrite live_set by exact Lv. cbn [becomes n_rd]. apply I.
              + rewrite <- lte_becomes in I' by exact Lv. exact I'.
            - intros [HC HE]. specialize (Lt' HC (or_intror (HE i Hi))). pose proof (total_upd cs i c n Hi Lt'). lia. }
          destruct (i_live _ _ _ _ _ _ _ _ _ _ _ _ _ J i _ Eq) as [D|(_ & _ & D & Ex)].
          -- pose proof (givesn_pos _ _ _ _ _ _ D) as Hp. apply givesn_writes in D as D'.
             assert (Get : exists w c, (ws i = b :: w \/ (ws i = [] /\ w = [] /\ es i = None)) /\ givesn c (f true) (feed H np (lte s ps pi) ws i) (closing es i) w (es i) /\ c <= cs i /\ (C -> ws i <> [] \/ es i <> None -> c < cs i)).
             { destruct D' as [ [X Y]|(c & w & X & Y & Z & W)].
               - exists [], (cs i). split; [auto|]. split; [|split; [lia|rewrite X, Y; intros _ [?|?]; congruence] ]. rewrite Y. destruct (cs i); [lia|]. apply gn_some.
               - exists w, c. split; [auto|]. split; [exact W|]. split; [lia|]. intros _ _. lia. }
             destruct Get as (w & c & Hw' & G & P2 & P3).
             set (pi' := fun j => if j =? np + i then pi (np + i) ++ [b] else pi j).
             assert (Fn : forall j, j <> S i -> feed H np (lte s ps pi') (upd ws i w) j = feed H np (lte s ps pi) ws j).
             { intros [|j] Hj; [reflexivity|]. cbn [feed lte n_pipes]. unfold pi'. rewrite upd_ne by lia. destruct (Nat.eqb_spec (np + j) (np + i)); [lia|reflexivity]. }
             apply (Fin (upd ws i w) c pi'); [|exact P2|exact P3|].
             ++ eapply inv_becomes with (s := lte s ps pi) (ws := ws) (cs := cs) (q := Writes b f); try eassumption.
                ** intros j Hj. now apply upd_ne.
                ** reflexivity.
                ** reflexivity.
                ** now left.
                ** rewrite upd_ne by lia. apply J.
                ** now left.
                ** intros j _ Hj. now apply Fn.
                ** intros _. cbn [feed lte n_pipes]. unfold pi'. rewrite upd_eq, Nat.eqb_refl, <- app_assoc. cbn [List.app]. destruct Hw' as [X|(X & Y & Z)]; [left; now rewrite X|].
                   right. split; [exact Z|]. exists [b]. rewrite X, Y, app_nil_r. reflexivity.
                ** left. rewrite upd_eq, Fn by lia. exact G.
                ** intros t. contradiction.
             ++ intros j Hj Lj. unfold pi'. destruct (Nat.eqb_spec (np + j) (np + i)) as [X|]; [|reflexivity]. assert (j = i) as -> by lia. unfold live in Lj. rewrite Ed in Lj. discriminate.
          -- apply (Fin ws (cs i) pi); [|lia| |auto].
             ++ eapply inv_becomes with (s := lte s ps pi) (ws := ws) (cs := cs) (q := Writes b f); try eassumption; auto.
                ** apply J.
                ** right. split; [exact Hn|]. split; [exact Ed|]. split; [exact D|]. intros c. specialize (Ex c). discriminate.
                ** intros t. contradiction.
             ++ intros c. specialize (Ex c). discriminate.
    - injection E as <-.
      destruct (inv_gone H h_wants h_event h_next h_resume h_open np fds sees shell x n) with (s := lte s ps pi) (ws := ws) (cs := cs) (i := i) (ok := ok) (RI := RI) (out := out) (es := es) (okf := okf) (C := C) (T := T)
        as [I' _]; try assumption; [apply I|].
      set (ps' := set_nth ps i None). assert (Wn : live ps' n = true -> live ps n = true).
      { unfold ps', live. rewrite nth_set_nth by exact Lt. destruct (Nat.eqb_spec n i); [discriminate|auto]. }
      assert (Lp' : List.length ps' = S n) by (unfold ps'; now rewrite set_nth_length).
      assert (Ew : r_wopen (n_rd s) && (live ps' n || extra (is_w K) qs) = live ps' n || extra (is_w K) qs).
      { rewrite (e_wopen _ _ _ _ _ _ I). destruct (live ps' n) eqn:L1; [rewrite Wn by reflexivity; reflexivity|]. destruct (live ps n), (extra (is_w K) qs); reflexivity. }
      assert (Eg : gone H h_open fds esees shell x K s i ok = mkN (ps' ++ qs) (n_pipes s) (n_in s) (setw (n_rd s) (live ps' n || extra (is_w K) qs)) (n_ok s && ok)).
      { unfold gone. rewrite Ep, set_nth_app1 by exact Lt. fold ps'. rewrite ewriter by (exact Lp' || lia). rewrite Ew. reflexivity. }
      rewrite Eg.
      assert (Rc : setw (n_rd s) (live ps' n || extra (is_w K) qs) = n_rd s \/ rst (n_rd s) LClose = Some (setw (n_rd s) (live ps' n || extra (is_w K) qs))).
      { rewrite <- Ew. destruct (r_wopen (n_rd s)) eqn:W; [|left; cbn [andb]; rewrite <- W; unfold setw; now destruct (n_rd s)].
        cbn [andb]. destruct (live ps' n || extra (is_w K) qs); [left; rewrite <- W; unfold setw; now destruct (n_rd s)|right; now apply rstep_close]. }
      exists ws, (upd cs i 0), ps', qs, pi. split; [|split].
      + constructor; cbn [n_procs n_rd n_pipes]; [reflexivity|apply I|apply I| | |reflexivity|].
        * intros j Hj Lj. apply I; [exact Hj|]. revert Lj. unfold ps', live. rewrite nth_set_nth by exact Lt. destruct (Nat.eqb_spec (S j) i); [discriminate|auto].
        * destruct Rc as [->|R]; [apply I|]. eapply RI_step; [apply I|exact R].
        * assert (El : gone H h_open fds sees shell x K (lte s ps pi) i ok = lte (mkN (ps' ++ qs) (n_pipes s) (n_in s) (setw (n_rd s) (live ps' n || extra (is_w K) qs)) (n_ok s && ok)) ps' pi).
          { unfold gone. cbn [lte n_procs n_pipes n_in n_rd n_ok]. rewrite (writer_spec H h_open np fds sees shell x n Hlen Hout Hw H1 Hsw) by lia. fold ps'. unfold lte, setw. cbn [n_procs n_pipes n_in n_rd n_ok r_h r_pend r_wopen r_phase r_out r_sent].
            destruct (live ps' n) eqn:L1; [rewrite Wn by reflexivity; reflexivity|]. now rewrite andb_false_r. }
          rewrite <- El. exact I'.
      + intros _. assert (0 < cs i).
        { destruct (i_live _ _ _ _ _ _ _ _ _ _ _ _ _ (e_inv _ _ _ _ _ _ I) i _ Eq) as [D|(_ & _ & D & _)]; [eapply givesn_pos; eauto|exact D]. }
        pose proof (total_upd cs i 0 n Hi ltac:(assumption)). lia.
      + destruct Rc as [->|R]; [now exists []|]. exists [LClose]. cbn [rsteps]. now rewrite R.
  Qed.

  (** A holder gives up its end. *)
  Lemma lte_same s s' ps pi : n_in s' = n_in s -> n_ok s' = n_ok s -> (forall w, setw (n_rd s') w = setw (n_rd s) w) -> lte s' ps pi = lte s ps pi.
  Proof. intros A B D. unfold lte. now rewrite A, B, D. Qed.
  Lemma rd_close s w : let w' := r_wopen (n_rd s) && w in setw (n_rd s) w' = n_rd s \/ rst (n_rd s) LClose = Some (setw (n_rd s) w').
  Proof.
    cbn zeta. destruct (r_wopen (n_rd s)) eqn:W; [|left; cbn [andb]; rewrite <- W; unfold setw; now destruct (n_rd s)].
    cbn [andb]. destruct w; [left; rewrite <- W; unfold setw; now destruct (n_rd s)|right; now apply rstep_close].
  Qed.
  Lemma e_holder s ws cs ps qs pi i q : einv s ws cs ps qs pi -> nth i qs None = Some q ->
    exists s', eproc s (S n + i) = Some s' /\ einv s' ws cs ps (set_nth qs i None) pi /\ exists rl, rsts (n_rd s) rl = Some (n_rd s').
  Proof.
    intros I Eq. pose proof (e_len _ _ _ _ _ _ I) as Lp. pose proof (e_procs _ _ _ _ _ _ I) as Ep. pose proof (e_hold _ _ _ _ _ _ I i q Eq) as ->.
    set (qs' := set_nth qs i None). set (w := live ps n || extra (is_w K) qs').
    assert (Eg : eproc s (S n + i) = Some (mkN (ps ++ qs') (n_pipes s) (n_in s) (setw (n_rd s) (r_wopen (n_rd s) && w)) (n_ok s && true))).
    { unfold proc_step. rewrite Ep, <- Lp, app_nth2_plus, Eq. f_equal. unfold gone. rewrite Ep, set_nth_app2. fold qs'. rewrite ewriter by (exact Lp || lia). reflexivity. }
    eexists. split; [exact Eg|]. pose proof (rd_close s w) as Rc. cbn zeta in Rc. cbn [n_rd].
    assert (Ew : r_wopen (n_rd s) && w = w).
    { unfold w. rewrite (e_wopen _ _ _ _ _ _ I). destruct (live ps n); [reflexivity|]. cbn [orb]. destruct (extra (is_w K) qs') eqn:X; [|apply andb_false_r]. apply some_live_less in X. now rewrite X. }
    split.
    - constructor; cbn [n_procs n_rd n_pipes setw r_wopen]; auto.
      + unfold qs'. rewrite set_nth_length. apply I.
      + intros j q' X. unfold qs' in X. rewrite nth_set_nth in X by (eapply nth_some_lt; exact Eq). destruct (Nat.eqb_spec j i); [discriminate|]. eapply e_hold; eassumption.
      + apply I.
      + fold (setw (n_rd s) (r_wopen (n_rd s) && w)). destruct Rc as [->|R]; [apply I|]. eapply RI_step; [apply I|exact R].
      + rewrite (lte_same s); [apply I|reflexivity|cbn; apply andb_true_r|reflexivity].
    - destruct Rc as [->|R]; [now exists []|]. exists [LClose]. cbn [rsteps]. now rewrite R.
  Qed.
  (** pieshell reads. *)
  Lemma rst_setw r rl r' : r_wopen r = true -> reader_only rl -> rst r rl = Some r' -> rst (setw r false) rl = Some (setw r' false).
  Proof.
    intros W O. destruct rl as [d| |m| | |ok]; cbn in O; try contradiction; unfold rstep.
    - unfold readable, read_ok. cbn [setw r_h r_pend r_wopen r_phase r_out r_sent]. rewrite W. destruct (h_open (r_h r)); [|discriminate]. cbn [andb negb orb].
      destruct (r_pend r) as [|b l]; [discriminate|]. destruct (h_wants (r_h r)).
      + destruct ((1 <=? m) && (m <=? 1024) && (m <=? List.length (b :: l))); [|discriminate]. destruct (h_event _ _) as [h w]. intros X. injection X as <-. reflexivity.
      + destruct (h_event _ _) as [h w]. intros X. injection X as <-. reflexivity.
    - cbn [setw r_phase r_h]. destruct (r_phase r); try discriminate. intros X. injection X as <-. unfold after. destruct (h_next (r_h r)) as [h [| |]]; reflexivity.
    - cbn [setw r_phase r_h]. destruct (r_phase r); try discriminate. intros X. injection X as <-. unfold after. destruct (h_resume (r_h r)) as [h [| |]]; reflexivity.
    - cbn [setw r_phase r_h]. destruct (r_phase r); try discriminate. intros X. injection X as <-. reflexivity.
  Qed.
  Lemma rst_setw' r rl r' w : (w = true -> r_wopen r = true) -> reader_only rl -> rst r rl = Some r' -> rst (setw r w) rl = Some (setw r' w).
  Proof.
    intros Hw0 O E. pose proof (rstep_keeps H h_wants h_event h_next h_resume h_open) as Kp. destruct (Kp _ _ _ O E) as [_ W].
    assert (Id : forall r0 : rstate H, setw r0 (r_wopen r0) = r0) by (intros []; reflexivity).
    destruct (r_wopen r) eqn:W0; destruct w.
    - pose proof (Id r) as Ir. pose proof (Id r') as Ir'. rewrite W0 in Ir. rewrite W in Ir'. now rewrite Ir, Ir'.
    - now apply rst_setw.
    - now specialize (Hw0 eq_refl).
    - pose proof (Id r) as Ir. pose proof (Id r') as Ir'. rewrite W0 in Ir. rewrite W in Ir'. now rewrite Ir, Ir'.
  Qed.
  Lemma e_step s ws cs ps qs pi l s' : einv s ws cs ps qs pi -> estep s l = Some s' -> egoes s s' cs qs (if proc_label l then 1 else 0).
  Proof.
    intros I E. pose proof (e_len _ _ _ _ _ _ I) as Lp. pose proof (e_procs _ _ _ _ _ _ I) as Ep.
    assert (Rdr : forall rl r, reader_only rl -> rst (n_rd s) rl = Some r -> egoes s (mkN (n_procs s) (n_pipes s) (n_in s) r (n_ok s)) cs qs 0).
    { intros rl r O R. exists ws, cs, ps, qs, pi. pose proof (rstep_keeps H h_wants h_event h_next h_resume h_open) as Kp. destruct (Kp _ _ _ O R) as [_ W]. split; [|split; [lia|exists [rl]; cbn [rsteps n_rd]; now rewrite R] ].
      constructor; cbn [n_procs n_rd n_pipes]; try apply I; [eapply RI_step; [apply I|exact R]|rewrite W; apply I|].
      assert (R' : rst (n_rd (lte s ps pi)) rl = Some (setw r (live ps n))).
      { apply rst_setw'; [|exact O|exact R]. intros X. now rewrite (e_wopen _ _ _ _ _ _ I), X. }
      exact (inv_read H h_wants h_event h_next h_resume h_open np sees n RI RI_step out es okf C T _ ws cs rl _ (e_inv _ _ _ _ _ _ I) O R'). }
    unfold nstep in E. destruct (negb (may _ s l)); [discriminate|]. destruct l as [i|m| | |ok]; cbn [reader_label proc_label] in *.
    2: { destruct (rst (n_rd s) (LReadable m)) eqn:R; [|discriminate]. injection E as <-. now apply (Rdr (LReadable m)). }
    2: { destruct (rst (n_rd s) LNext) eqn:R; [|discriminate]. injection E as <-. now apply (Rdr LNext). }
    2: { destruct (rst (n_rd s) LWake) eqn:R; [|discriminate]. injection E as <-. now apply (Rdr LWake). }
    2: { destruct (rst (n_rd s) (LAtEof ok)) eqn:R; [|discriminate]. injection E as <-. now apply (Rdr (LAtEof ok)). }
    destruct (Nat.le_gt_cases i n) as [Hi|Hi]; [now apply (e_proc s ws cs ps qs pi i)|].
    replace i with (S n + (i - S n)) in E by lia. remember (i - S n) as j eqn:Ej.
    destruct (nth j qs None) as [q|] eqn:Eq.
    - destruct (e_holder s ws cs ps qs pi j q I Eq) as (s1 & E1 & I1 & R1). rewrite E1 in E. injection E as <-. exists ws, cs, ps, (set_nth qs j None), pi. split; [exact I1|]. split; [|exact R1]. intros _. pose proof (alive_gone qs j q Eq). lia.
    - unfold proc_step in E. rewrite Ep, <- Lp, app_nth2_plus, Eq in E. discriminate.
  Qed.
  Lemma e_steps ls : forall s ws cs ps qs pi s', einv s ws cs ps qs pi -> esteps s ls = Some s' -> egoes s s' cs qs (List.length (filter proc_label ls)).
  Proof.
    induction ls as [|l ls IH]; intros s ws cs ps qs pi s' I; cbn [nsteps].
    - intros E. injection E as <-. exists ws, cs, ps, qs, pi. split; [exact I|]. split; [cbn; lia|]. now exists [].
    - destruct (estep s l) as [s1|] eqn:E; [|discriminate]. intros E2. destruct (e_step _ _ _ _ _ _ _ _ I E) as (ws1 & cs1 & ps1 & qs1 & pi1 & I1 & T1 & rl & R).
      destruct (IH _ _ _ _ _ _ _ I1 E2) as (ws2 & cs2 & ps2 & qs2 & pi2 & I2 & T2 & rl2 & R2). exists ws2, cs2, ps2, qs2, pi2. split; [exact I2|]. split.
      + intros B. specialize (T1 B). specialize (T2 B). cbn [filter]. destruct (proc_label l); cbn [List.length]; lia.
      + exists (rl ++ rl2). now rewrite rsteps_app, R.
  Qed.
  (** ** It can go on to the end *)
  Lemma holders_go : forall k s ws cs ps qs pi, alive qs = k -> einv s ws cs ps qs pi ->
    exists ls s' qs', esteps s ls = Some s' /\ einv s' ws cs ps qs' pi /\ alive qs' = 0.
  Proof.
    induction k as [|k IH]; intros s ws cs ps qs pi Al I; [now exists [], s, qs|].
    assert (Ex : exists i q, nth i qs None = Some q).
    { revert Al. unfold alive. clear. induction qs as [|[q|] qs IHq]; cbn [filter List.length]; [discriminate|now exists 0, q|]. intros A. destruct (IHq A) as (i & q & E). now exists (S i), q. }
    destruct Ex as (i & q & Eq). destruct (e_holder s ws cs ps qs pi i q I Eq) as (s1 & E1 & I1 & _).
    destruct (IH s1 ws cs ps (set_nth qs i None) pi) as (ls & s2 & qs2 & E2 & I2 & A2); [pose proof (alive_gone qs i q Eq); lia|exact I1|].
    exists (NProc (S n + i) :: ls), s2, qs2. split; [|now split]. cbn [nsteps]. unfold nstep. cbn [may negb]. now rewrite E1.
  Qed.
  Lemma alive_none qs : alive qs = 0 -> forall q, In q qs -> q = None.
  Proof.
    unfold alive. induction qs as [|q0 qs IH]; intros A q' Hq; [destruct Hq|]. destruct q0; cbn [filter List.length] in A; [discriminate|]. destruct Hq as [<-|Hq]; [reflexivity|now apply IH].
  Qed.
  Lemma total_pipes s pi1 pi2 ps ws cs : (forall j, j < n -> live ps (S j) = true -> pi1 (np + j) = pi2 (np + j)) -> invl (lte s ps pi1) ws cs -> invl (lte s ps pi2) ws cs.
  Proof.
    intros Ag J. assert (Fe : forall i q, nth i ps None = Some q -> feed H np (lte s ps pi2) ws i = feed H np (lte s ps pi1) ws i).
    { intros [|j] q E; [reflexivity|]. cbn [feed lte n_pipes]. pose proof (nth_some_lt _ _ _ E) as Lt. pose proof (i_len _ _ _ _ _ _ _ _ _ _ _ _ _ J) as Ln. cbn [lte n_procs] in Ln. rewrite Ag; [reflexivity|lia|unfold live; now rewrite E]. }
    destruct J. constructor; auto.
    - intros i q E. rewrite (Fe i q E). now apply i_live.
    - intros t j q E. rewrite (Fe _ q E). now apply i_all.
  Qed.
  (** With no holder left the two networks make the same steps. *)
  Definition with_none (qs : list (option prog)) (t : net H) : net H := mkN (n_procs t ++ qs) (n_pipes t) (n_in t) (n_rd t) (n_ok t).
  Lemma none_step qs t l t' : (forall q, In q qs -> q = None) -> List.length (n_procs t) = S n -> lstep t l = Some t' -> estep (with_none qs t) l = Some (with_none qs t') /\ List.length (n_procs t') = S n.
  Proof.
    intros Nq Lp. unfold nstep. assert (My : may _ (with_none qs t) l = may _ t l).
    { destruct l; try reflexivity. cbn [may with_none n_procs n_ok]. rewrite forallb_app. replace (forallb _ qs) with true; [now rewrite andb_true_r|]. symmetry. apply forallb_forall. intros q Hq. now rewrite (Nq q Hq). }
    rewrite My. destruct (negb (may _ t l)); [discriminate|].
    assert (Rdr : forall rl, match rst (n_rd t) rl with Some r => Some (mkN (n_procs t) (n_pipes t) (n_in t) r (n_ok t)) | None => None end = Some t' ->
      match rst (n_rd (with_none qs t)) rl with Some r => Some (mkN (n_procs (with_none qs t)) (n_pipes (with_none qs t)) (n_in (with_none qs t)) r (n_ok (with_none qs t))) | None => None end = Some (with_none qs t') /\ List.length (n_procs t') = S n).
    { intros rl. cbn [with_none n_rd]. destruct (rst (n_rd t) rl); [|discriminate]. intros X. injection X as <-. split; [reflexivity|exact Lp]. }
    destruct l as [i|m| | |ok]; try exact (Rdr _). clear Rdr My.
    assert (Bc : forall u i0 p, i0 <= n -> List.length (n_procs u) = S n -> becomes H (with_none qs u) i0 p = with_none qs (becomes H u i0 p) /\ List.length (n_procs (becomes H u i0 p)) = S n).
    { intros u i0 p Hi Lu. unfold becomes, with_none. cbn [n_procs n_pipes n_in n_rd n_ok]. rewrite set_nth_app1 by lia. split; [reflexivity|]. now rewrite set_nth_length. }
    unfold proc_step. destruct (nth i (n_procs t) None) as [q|] eqn:Eq; [|discriminate]. pose proof (nth_some_lt _ _ _ Eq) as Lt. assert (Hi : i <= n) by lia.
    cbn [with_none n_procs]. rewrite nth_e, Eq by lia. rewrite esee by exact Hi.
    assert (Rl : forall k, reader_left H h_open fds esees shell x (with_none qs t) k = reader_left H h_open fds sees shell x t k).
    { intros k. unfold reader_left. cbn [with_none n_procs n_rd]. rewrite some_live_app by lia. rewrite (some_live_none fds (is_r k) qs _ Nq), orb_false_r. reflexivity. }
    assert (Wl : forall k ps, List.length ps = S n -> writer_left H h_open fds esees shell x (with_none qs t) (ps ++ qs) k = writer_left H h_open fds sees shell x t ps k).
    { intros k ps Ln. unfold writer_left. rewrite some_live_app by lia. rewrite (some_live_none fds (is_w k) qs _ Nq), orb_false_r. reflexivity. }
    assert (Fin : forall u p, List.length (n_procs u) = S n -> Some (becomes H u i p) = Some t' -> Some (becomes H (with_none qs u) i p) = Some (with_none qs t') /\ List.length (n_procs t') = S n).
    { intros u p Lu X. injection X as <-. destruct (Bc u i p Hi Lu) as [-> X]. now split. }
    destruct q as [f|b f|ok].
    - destruct (see i 0) as [ [?|k|?|? ?|?]|]; try exact (Fin t _ Lp); try (cbn [with_none n_in n_pipes n_rd n_ok]; destruct (n_in t); [exact (Fin t _ Lp)|exact (Fin (mkN (n_procs t) (n_pipes t) l (n_rd t) (n_ok t)) _ Lp)]).
      destruct (ours np k).
      + change (content H K (with_none qs t) k) with (content H K t k). destruct (content H K t k).
        * rewrite Wl by exact Lp. destruct (writer_left H h_open fds sees shell x t (n_procs t) k); [discriminate|exact (Fin t _ Lp)].
        * assert (Po : pop H K (with_none qs t) k = with_none qs (pop H K t k)) by (unfold pop; destruct (Nat.eqb k K); reflexivity). rewrite Po. apply Fin. unfold pop. destruct (Nat.eqb k K); exact Lp.
      + cbn [with_none n_in n_pipes n_rd n_ok]; destruct (n_in t); [exact (Fin t _ Lp)|exact (Fin (mkN (n_procs t) (n_pipes t) l (n_rd t) (n_ok t)) _ Lp)].
    - destruct (see i 1) as [ [?|?|k|? ?|?]|]; try exact (Fin t _ Lp). destruct (ours np k); [|exact (Fin t _ Lp)]. rewrite Rl. destruct (negb (reader_left H h_open fds sees shell x t k)); [exact (Fin t _ Lp)|].
      change (content H K (with_none qs t) k) with (content H K t k). destruct (List.length (content H K t k) <? cap); [|discriminate].
      assert (Po : push H K (with_none qs t) k b = with_none qs (push H K t k b)) by (unfold push; destruct (Nat.eqb k K); reflexivity). rewrite Po. apply Fin. unfold push. destruct (Nat.eqb k K); exact Lp.
    - intros X. injection X as <-. unfold gone. cbn [with_none n_procs n_rd n_pipes n_in n_ok]. rewrite set_nth_app1 by lia. rewrite Wl by (now rewrite set_nth_length). split; [reflexivity|now rewrite set_nth_length].
  Qed.
  Lemma none_steps qs ls : forall t t', (forall q, In q qs -> q = None) -> List.length (n_procs t) = S n -> lsteps t ls = Some t' -> esteps (with_none qs t) ls = Some (with_none qs t').
  Proof.
    induction ls as [|l ls IH]; intros t t' Nq Lp; cbn [nsteps]; [intros X; now injection X as <-|].
    destruct (lstep t l) as [t1|] eqn:E; [|discriminate]. destruct (none_step qs t l t1 Nq Lp E) as [-> L1]. now apply IH.
  Qed.
End Early.
