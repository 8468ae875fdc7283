From Verif Require Import Py RedirModel Os PerformModel PerformSpec RunModel RunSpec RunTopSpec RunEnds IterModel IterSpec IterProofs NetModel NetSpec NetProofs SubModel SubSpec.

Section Graph.
  Variable H : Type.
  Variable h_wants : H -> bool.
  Variable h_event : H -> bytes -> H * bool.
  Variable h_next h_resume : H -> H * outcome.
  Variable h_open : H -> bool.
  Variables np cap : nat.
  Variable fds : list nat.
  Variable sees : list (nat -> option ofd).
  Variable subs : list sub.
  Variable children : list child.
  Variable shell : tab.
  Variables x n : nat.
  (** [pw i]: the pipe program i writes. *)
  Variable pw : nat -> nat.
  Notation K := (pw n).
  Notation see i := (nth i sees (fun _ => None)).
  Notation rstepH := (rstep H h_wants h_event h_next h_resume h_open true).
  Notation rstepsH := (rsteps H h_wants h_event h_next h_resume h_open true).
  Notation u_stepH := (u_step H h_wants h_event h_next h_resume h_open np cap fds sees subs children shell x K).
  Notation u_stepsH := (u_steps H h_wants h_event h_next h_resume h_open np cap fds sees subs children shell x K).
  Notation u_procH := (u_proc H h_open np cap fds sees subs shell x K).
  Notation u_leaveH := (u_leave H h_open fds sees subs shell x K).
  Notation live := (u_live fds sees subs).
  Notation writer := (u_writer H h_open fds sees subs shell x).
  Notation reader := (u_reader H h_open fds sees subs shell x).
  Notation content := (u_content H K).
  Hypothesis Hlen : List.length sees = S n.
  Hypothesis Hpw : forall i, i <= n -> np <= pw i.
  Hypothesis Hinj : forall i j, i <= n -> j <= n -> pw i = pw j -> i = j.
  Hypothesis Hin0 : forall k, see 0 0 = Some (OPipeR k) -> k < np.
  Hypothesis Hin0' : see 0 0 <> None.
  Hypothesis HinS : forall j, j < n -> see (S j) 0 = Some (OPipeR (pw j)).
  Hypothesis Hout : forall i, i <= n -> see i 1 = Some (OPipeW (pw i)).
  Hypothesis Hw : forall i m k, i <= n -> In m fds -> np <= k -> see i m = Some (OPipeW k) -> k = pw i.
  Hypothesis Hr : forall i m k, i <= n -> In m fds -> np <= k -> see i m = Some (OPipeR k) -> exists j, i = S j /\ k = pw j.
  Hypothesis H0 : In 0 fds.
  Hypothesis H1 : In 1 fds.
  Hypothesis Hb : forall j b, nth_error subs j = Some b -> b_first b <= b_last b /\ b_last b <= n.
  Hypothesis Bw : forall j b m k, nth_error subs j = Some b -> In m fds -> np <= k -> b_sees b m = Some (OPipeW k) -> k = pw (b_last b).
  Hypothesis Br : forall j b m k, nth_error subs j = Some b -> In m fds -> np <= k -> b_sees b m = Some (OPipeR k) -> exists i, b_first b = S i /\ k = pw i.
  Hypothesis Bd : forall j b j' b', nth_error subs j = Some b -> nth_error subs j' = Some b' -> b_first b < b_first b' -> b_first b' <= b_last b -> b_last b' <= b_last b.
  Hypothesis Hsw : forall m k, refers shell m = Some (OPipeW k) -> k < np.
  Hypothesis Hsr : forall m k, refers shell m = Some (OPipeR k) -> np <= k -> m = x.
  Hypothesis Hx : refers shell x = Some (OPipeR K).
  Variable RI : rstate H -> Prop.
  Hypothesis RI_step : forall r l r', RI r -> rstepH r l = Some r' -> RI r'.
  Hypothesis RI_open : forall r, RI r -> h_open (r_h r) = false -> r_wopen r = false.

  Definition dead (ps : list pstate) (i : nat) : Prop := going ps i = false.
  Lemma going_Going ps i q : u_state ps i = Going q -> going ps i = true.
  Proof. unfold going. now intros ->. Qed.
  Lemma dead_Gone ps i : dead ps i -> exists ok, u_state ps i = Gone ok.
  Proof. unfold dead, going. destruct (u_state ps i); [discriminate|eauto]. Qed.
  Lemma state_lt ps i q : u_state ps i = Going q -> i < List.length ps.
  Proof. unfold u_state. intros E. destruct (Nat.lt_ge_cases i (List.length ps)) as [X|X]; [exact X|]. rewrite nth_overflow in E by exact X. discriminate. Qed.
  Lemma live_spec test ps bs : live test ps bs = true <->
    (exists i m, i <= n /\ going ps i = true /\ In m fds /\ test (see i m) = true) \/
    (exists j b m, nth_error subs j = Some b /\ waits bs j = true /\ In m fds /\ test (b_sees b m) = true).
  Proof.
    unfold u_live. rewrite orb_true_iff, !existsb_exists. split.
    - intros [(i & Hi & X)|(j & Hj & X)]; apply andb_prop in X as [X Y]; apply existsb_exists in Y as (m & Im & Tm).
      + left. exists i, m. apply in_seq in Hi. split; [lia|auto].
      + right. apply in_seq in Hj. destruct (nth_error subs j) as [b|] eqn:Eb; [exists j, b, m; auto|]. apply nth_error_None in Eb. lia.
    - intros [(i & m & Hi & A & Im & Tm)|(j & b & m & Eb & A & Im & Tm)].
      + left. exists i. split; [apply in_seq; lia|]. rewrite A. apply existsb_exists. eauto.
      + right. exists j. split; [apply in_seq; split; [lia|]; apply nth_error_Some; congruence|]. rewrite A, Eb. apply existsb_exists. eauto.
  Qed.
  Lemma live_mono test ps bs ps' bs' : (forall i, going ps' i = true -> going ps i = true) -> (forall j, waits bs' j = true -> waits bs j = true) ->
    live test ps' bs' = true -> live test ps bs = true.
  Proof.
    intros A B. rewrite !live_spec. intros [(i & m & X1 & X2 & X3)|(j & b & m & X1 & X2 & X3)]; [left; exists i, m; auto|right; exists j, b, m; auto].
  Qed.
  Lemma live_same test ps bs ps' bs' : (forall i, going ps' i = going ps i) -> (forall j, waits bs' j = waits bs j) -> live test ps' bs' = live test ps bs.
  Proof. intros A B. apply eq_true_iff_eq. split; apply live_mono; intros; congruence. Qed.
  Lemma shell_no_w r k : np <= k -> shell_has H h_open shell x (is_w k) r = false.
  Proof.
    intros Hk. destruct (shell_has _ _ _ _ _ _) eqn:X; [|reflexivity]. apply existsb_exists in X as (m & _ & X). apply andb_true_iff in X as [X _].
    apply is_w_spec in X. apply Hsw in X. lia.
  Qed.
  Lemma shell_r r k : np <= k -> shell_has H h_open shell x (is_r k) r = Nat.eqb k K && h_open (r_h r).
  Proof.
    intros Hk. apply eq_true_iff_eq. rewrite andb_true_iff, Nat.eqb_eq. unfold shell_has. rewrite existsb_exists. split.
    - intros (m & _ & X). apply andb_true_iff in X as [X Y]. apply is_r_spec in X. pose proof (Hsr m k X Hk) as ->. rewrite Nat.eqb_refl in Y. split; [congruence|exact Y].
    - intros [-> O]. exists x. split.
      + apply in_seq. split; [lia|]. cbn. eapply refers_lt. exact Hx.
      + rewrite Hx. cbn [is_r]. now rewrite !Nat.eqb_refl, O.
  Qed.
  Lemma writer_live s ps bs j : j <= n -> writer s ps bs (pw j) = live (is_w (pw j)) ps bs.
  Proof. intros Hj. unfold u_writer. now rewrite (shell_no_w _ _ (Hpw j Hj)), orb_false_r. Qed.
  (** Who keeps the writing end of pipe [pw j] open. *)
  Lemma live_w ps bs j : j <= n -> (live (is_w (pw j)) ps bs = true -> going ps j = true \/ exists c b, nth_error subs c = Some b /\ waits bs c = true /\ b_last b = j) /\
    (going ps j = true -> live (is_w (pw j)) ps bs = true).
  Proof.
    intros Hj. split.
    - rewrite live_spec. intros [(i & m & Hi & A & Im & Tm)|(c & b & m & Eb & A & Im & Tm)]; apply is_w_spec in Tm.
      + apply Hw in Tm; auto. apply Hinj in Tm; auto. subst. now left.
      + right. exists c, b. split; [exact Eb|]. split; [exact A|]. apply (Bw c b) in Tm; auto. apply Hinj in Tm; auto. apply (Hb c b Eb).
    - intros A. apply live_spec. left. exists j, 1. split; [exact Hj|]. split; [exact A|]. split; [exact H1|]. apply is_w_spec. now apply Hout.
  Qed.
  Lemma reader_none s j : j <= n -> reader s (pw j) = false -> (j = n -> h_open (r_h (u_rd s)) = false) /\ (j < n -> dead (u_procs s) (S j)).
  Proof.
    intros Hj X. unfold u_reader in X. apply orb_false_iff in X as [X Y]. rewrite (shell_r _ _ (Hpw j Hj)) in Y. split.
    - intros ->. now rewrite Nat.eqb_refl in Y.
    - intros Lt. unfold dead. destruct (going (u_procs s) (S j)) eqn:G; [|reflexivity]. exfalso.
      assert (Z : live (is_r (pw j)) (u_procs s) (u_subs s) = true); [|congruence]. apply live_spec. left. exists (S j), 0. split; [lia|]. split; [exact G|]. split; [exact H0|].
      apply is_r_spec. now apply HinS.
  Qed.
  Lemma no_reader s j : j < n -> dead (u_procs s) (S j) -> (forall c b, nth_error subs c = Some b -> b_first b = S j -> waits (u_subs s) c = false) -> reader s (pw j) = false.
  Proof.
    intros Hj D B. unfold u_reader. rewrite (shell_r _ _ (Hpw j ltac:(lia))). destruct (Nat.eqb_spec (pw j) K) as [X|_]; [apply Hinj in X; lia|]. cbn [andb]. rewrite orb_false_r.
    destruct (live _ _ _) eqn:X; [|reflexivity]. apply live_spec in X. destruct X as [(i & m & Hi & A & Im & Tm)|(c & b & m & Eb & A & Im & Tm)]; apply is_r_spec in Tm.
    - apply Hr in Tm; auto; [|apply Hpw; lia]. destruct Tm as (j' & -> & Tm). apply Hinj in Tm; [|lia|lia]. subst j'. unfold dead in D. congruence.
    - apply (Br c b) in Tm; auto; [|apply Hpw; lia]. destruct Tm as (j' & Ef & Tm). pose proof (Hb c b Eb). apply Hinj in Tm; [|lia|lia]. subst j'. rewrite (B c b Eb Ef) in A. discriminate.
  Qed.

  (** What program [i] finds on its standard input, [ws] being what is still to be written. *)
  Definition feeds (s : snet H) (ws : nat -> list N) (i : nat) : list N := match i with 0 => u_in s | S j => content s (pw j) ++ ws j end.
  Definition readers_gone (ps : list pstate) (i : nat) : Prop := i <> n /\ dead ps (S i).
  Variable out : list N.
  Variable oks : nat -> bool.
  Variable T : Prop.
  Definition good (s : snet H) (ws : nat -> list N) (c : nat) (i : nat) (q : prog) : Prop :=
    givesn c q (feeds s ws i) true (ws i) (Some (oks i)) /\ careful q /\ (T -> forall j, i = S j -> reads_all q (feeds s ws i) \/ dead (u_procs s) j).
  Definition bad (s : snet H) (c : nat) (i : nat) (q : prog) : Prop := readers_gone (u_procs s) i /\ q = Exits false /\ 0 < c /\ ~ T.
  Definition ends (ps : list pstate) (ws : nat -> list N) (i : nat) (ok : bool) : Prop :=
    (ws i = [] \/ readers_gone ps i) /\ (T -> forall j, i = S j -> dead ps j) /\ (oks i = false -> ok = false) /\ (T -> ok = oks i).
  Definition left_ok (ps : list pstate) (b : sub) (ok : bool) : Prop :=
    (forall i, b_first b <= i <= b_last b -> dead ps i) /\ (u_state ps (b_last b) = Gone false -> ok = false) /\
    ((forall i, b_first b <= i <= b_last b -> u_state ps i = Gone true) -> ok = true).
  Record uinv (s : snet H) (ws : nat -> list N) (cs : nat -> nat) : Prop := {
    v_len : List.length (u_procs s) = S n;
    v_slen : List.length (u_subs s) = List.length subs;
    v_rd : RI (u_rd s);
    v_sent : r_sent (u_rd s) ++ ws n = out;
    v_wopen : r_wopen (u_rd s) = live (is_w K) (u_procs s) (u_subs s);
    v_live : forall i q, u_state (u_procs s) i = Going q -> good s ws (cs i) i q \/ bad s (cs i) i q;
    v_gone : forall i ok, i <= n -> u_state (u_procs s) i = Gone ok -> ends (u_procs s) ws i ok;
    v_subs : forall j b ok, nth_error subs j = Some b -> nth_error (u_subs s) j = Some (Some ok) -> left_ok (u_procs s) b ok }.

  Lemma state_set ps i v j : i < List.length ps -> u_state (set_nth ps i v) j = if Nat.eqb j i then v else u_state ps j.
  Proof. intros Hi. unfold u_state. now apply nth_set_nth. Qed.
  (** A step of program i: the others find what they found. *)
  Lemma uinv_update s ws cs i q0 s' q' ws' c' :
    uinv s ws cs -> u_state (u_procs s) i = Going q0 -> u_procs s' = set_nth (u_procs s) i q' -> u_subs s' = u_subs s ->
    RI (u_rd s') -> r_sent (u_rd s') ++ ws' n = out -> r_wopen (u_rd s') = live (is_w K) (u_procs s') (u_subs s') ->
    (forall j, j <= n -> j <> i -> feeds s' ws' j = feeds s ws j) -> (forall j, j <= n -> j <> i -> ws' j = ws j) ->
    match q' with Going q => good s' ws' c' i q \/ bad s' c' i q | Gone ok => ends (u_procs s') ws' i ok end ->
    uinv s' ws' (upd cs i c').
  Proof.
    intros I E0 Ep Es A1 A2 A3 A5 A6 A7. pose proof (state_lt _ _ _ E0) as Hi0. pose proof (v_len _ _ _ I) as L. assert (Hi : i <= n) by lia.
    assert (Nth : forall j, u_state (u_procs s') j = if Nat.eqb j i then q' else u_state (u_procs s) j) by (intros j; rewrite Ep; now apply state_set).
    assert (Dk : forall j, dead (u_procs s) j -> dead (u_procs s') j).
    { intros j D. unfold dead, going in *. rewrite Nth. destruct (Nat.eqb_spec j i) as [->|]; [rewrite E0 in D; discriminate|exact D]. }
    assert (Rk : forall j, readers_gone (u_procs s) j -> readers_gone (u_procs s') j) by (intros j [Z1 Z2]; split; auto).
    assert (Gk : forall j ok, j <> i -> u_state (u_procs s') j = Gone ok -> u_state (u_procs s) j = Gone ok).
    { intros j ok Ne. rewrite Nth. destruct (Nat.eqb_spec j i); [contradiction|auto]. }
    constructor; try assumption.
    - now rewrite Ep, set_nth_length.
    - rewrite Es. apply (v_slen _ _ _ I).
    - intros j q Ej. rewrite Nth in Ej. destruct (Nat.eqb_spec j i) as [->|Ne].
      + subst q'. rewrite upd_eq. exact A7.
      + rewrite upd_ne by exact Ne. assert (Hj : j <= n) by (apply state_lt in Ej; lia). destruct (v_live _ _ _ I j q Ej) as [(G1 & G2 & G3)|(B1 & B2)].
        * left. split; [|split; [exact G2|]]; rewrite ?A5, ?A6 by assumption; [exact G1|]. intros HT k Ek. destruct (G3 HT k Ek); auto.
        * right. split; [now apply Rk|exact B2].
    - intros j ok Hj D. destruct (Nat.eq_dec j i) as [->|Ne].
      + rewrite Nth, Nat.eqb_refl in D. subst q'. exact A7.
      + apply Gk in D; [|exact Ne]. destruct (v_gone _ _ _ I j ok Hj D) as (X1 & X2 & X3). unfold ends. rewrite A6 by assumption.
        split; [destruct X1; auto|]. split; [|exact X3]. intros HT k Ek. apply Dk. eauto.
    - intros j b ok Eb Ej. rewrite Es in Ej. destruct (v_subs _ _ _ I j b ok Eb Ej) as (X1 & X2 & X3). split; [auto|].
      assert (Ni : forall k, b_first b <= k <= b_last b -> u_state (u_procs s') k = u_state (u_procs s) k).
      { intros k Hk. specialize (X1 k Hk). rewrite Nth. destruct (Nat.eqb_spec k i) as [->|]; [|reflexivity]. unfold dead, going in X1. rewrite E0 in X1. discriminate. }
      pose proof (Hb j b Eb). split; [rewrite Ni by lia; exact X2|]. intros Z. apply X3. intros k Hk. rewrite <- Ni by exact Hk. now apply Z.
  Qed.

  Lemma state_le s ws cs i q : uinv s ws cs -> u_state (u_procs s) i = Going q -> i <= n.
  Proof. intros I X. apply state_lt in X. rewrite (v_len _ _ _ I) in X. lia. Qed.
  Lemma content_push s k b k' : content (u_push H K s k b) k' = if Nat.eqb k' k then content s k ++ [b] else content s k'.
  Proof.
    unfold u_content, u_push. destruct (Nat.eqb_spec k K) as [->|Nk].
    - cbn [u_rd u_pipes with_pend r_pend]. destruct (Nat.eqb_spec k' K) as [->|Nk']; reflexivity.
    - cbn [u_rd u_pipes]. destruct (Nat.eqb_spec k' K) as [->|Nk'].
      + destruct (Nat.eqb_spec K k); [congruence|reflexivity].
      + reflexivity.
  Qed.
  Lemma content_pop s k k' : k <> K -> content (u_pop H K s k) k' = if Nat.eqb k' k then tl (content s k) else content s k'.
  Proof.
    intros Nk. unfold u_content, u_pop. destruct (Nat.eqb_spec k K) as [|_]; [contradiction|]. cbn [u_rd u_pipes].
    destruct (Nat.eqb_spec k' K) as [->|Nk']; [|reflexivity]. destruct (Nat.eqb_spec K k); [congruence|reflexivity].
  Qed.
  Lemma pop_same s k : k <> K -> u_procs (u_pop H K s k) = u_procs s /\ u_rd (u_pop H K s k) = u_rd s /\ u_in (u_pop H K s k) = u_in s /\ u_subs (u_pop H K s k) = u_subs s.
  Proof. intros Nk. unfold u_pop. destruct (Nat.eqb_spec k K); [contradiction|]. now repeat split. Qed.
  Lemma push_same s k b : u_procs (u_push H K s k b) = u_procs s /\ u_in (u_push H K s k b) = u_in s /\ u_subs (u_push H K s k b) = u_subs s.
  Proof. unfold u_push. destruct (Nat.eqb k K); now repeat split. Qed.

  Lemma RI_steps rl : forall r r', RI r -> rstepsH r rl = Some r' -> RI r'.
  Proof.
    induction rl as [|l rl IH]; intros r r' Hr0; cbn [rsteps]; [intros X; now injection X as <-|].
    destruct (rstepH r l) as [r1|] eqn:E1; [|discriminate]. apply IH. eapply RI_step; eauto.
  Qed.
  Definition ugoes (s s' : snet H) (ws : nat -> list N) (cs : nat -> nat) (i : nat) : Prop :=
    exists ws' c, uinv s' ws' (upd cs i c) /\ c < cs i /\ (exists rl, rstepsH (u_rd s) rl = Some (u_rd s')) /\ u_subs s' = u_subs s.

  (** Somebody has gone. *)
  Lemma went s ps bs : (r_wopen (u_rd s) = live (is_w K) (u_procs s) (u_subs s)) ->
    (forall i, going ps i = true -> going (u_procs s) i = true) -> (forall j, waits bs j = true -> waits (u_subs s) j = true) ->
    let s' := u_went H h_open fds sees subs shell x K s ps bs in
    r_wopen (u_rd s') = live (is_w K) ps bs /\ exists rl, rstepsH (u_rd s) rl = Some (u_rd s').
  Proof.
    intros W A B s'. assert (Wo : r_wopen (u_rd s') = live (is_w K) ps bs).
    { cbn [s' u_went u_rd r_wopen]. rewrite W, writer_live by lia. pose proof (live_mono (is_w K) (u_procs s) (u_subs s) ps bs A B) as M.
      destruct (live (is_w K) ps bs); [now rewrite M|apply andb_false_r]. }
    split; [exact Wo|]. cbn [s' u_went u_rd] in *. cbn [r_wopen] in Wo. rewrite Wo. destruct (Bool.bool_dec (live (is_w K) ps bs) (r_wopen (u_rd s))) as [E|E].
    - exists []. cbn [rsteps]. rewrite E. now destruct (u_rd s).
    - assert (F : live (is_w K) ps bs = false /\ r_wopen (u_rd s) = true).
      { rewrite W in *. pose proof (live_mono (is_w K) (u_procs s) (u_subs s) ps bs A B) as M. destruct (live (is_w K) ps bs); [now destruct E; rewrite M|]. split; [reflexivity|]. now destruct (live _ _ _). }
      destruct F as [F1 F2]. exists [LClose]. cbn [rsteps]. rewrite rstep_close by exact F2. now rewrite F1.
  Qed.

  Lemma go_exit s ws cs i ok : uinv s ws cs -> u_state (u_procs s) i = Going (Exits ok) ->
    ugoes s (u_went H h_open fds sees subs shell x K s (set_nth (u_procs s) i (Gone ok)) (u_subs s)) ws cs i.
  Proof.
    intros I E0. pose proof (state_lt _ _ _ E0) as Hi0. pose proof (state_le _ _ _ _ _ I E0) as Hi. pose proof (v_len _ _ _ I) as L.
    set (ps := set_nth (u_procs s) i (Gone ok)).
    assert (St : forall j, u_state ps j = if Nat.eqb j i then Gone ok else u_state (u_procs s) j) by (intros j; now apply state_set).
    destruct (went s ps (u_subs s) (v_wopen _ _ _ I)) as [Wo Rd]; [|auto|].
    { intros j. unfold going. rewrite St. destruct (Nat.eqb_spec j i); [discriminate|auto]. }
    set (s' := u_went H h_open fds sees subs shell x K s ps (u_subs s)) in *.
    assert (Dk : forall j, dead (u_procs s) j -> dead ps j).
    { intros j D. unfold dead, going in *. rewrite St. destruct (Nat.eqb_spec j i) as [->|]; [reflexivity|exact D]. }
    assert (RI' : RI (u_rd s')) by (destruct Rd as (rl & Rd); exact (RI_steps rl _ _ (v_rd _ _ _ I) Rd)).
    destruct (v_live _ _ _ I i _ E0) as [(G1 & _ & G3)|((B0 & B1) & B2 & B3 & B4)].
    - pose proof (givesn_pos _ _ _ _ _ _ G1) as Po. destruct (givesn_exits _ _ _ _ _ _ G1) as [Ew [Eo|Eo]]; [discriminate|]. injection Eo as Eo. exists ws, 0. split; [|split; [lia|split; [exact Rd|reflexivity]]].
      eapply (uinv_update s ws cs i (Exits ok) s' (Gone ok)); eauto; [apply (v_sent _ _ _ I)|]. split; [now left|]. split.
      + intros HT j ->. cbn [s' u_went u_procs]. destruct (G3 HT j eq_refl) as [X|X]; [inversion X|now apply Dk].
      + split; [congruence|auto].
    - injection B2 as ->. exists ws, 0. split; [|split; [lia|split; [exact Rd|reflexivity]]].
      eapply (uinv_update s ws cs i (Exits false) s' (Gone false)); eauto; [apply (v_sent _ _ _ I)|]. split; [right; split; [exact B0|now apply Dk]|].
      split; [now intros HT; destruct B4|]. split; [reflexivity|]. intros HT; now destruct B4.
  Qed.
  Lemma careful_w b k : careful (Writes b k) -> k false = Exits false /\ careful (k true).
  Proof. inversion 1; auto. Qed.
  Lemma careful_r k : careful (Reads k) -> forall o, careful (k o).
  Proof. inversion 1; auto. Qed.
  Lemma going_set ps i q q' j : u_state ps i = Going q -> going (set_nth ps i (Going q')) j = going ps j.
  Proof. intros E. unfold going. rewrite state_set by (eapply state_lt; eauto). destruct (Nat.eqb_spec j i) as [->|]; [now rewrite E|reflexivity]. Qed.

  Lemma go_epipe s ws cs i b k : uinv s ws cs -> u_state (u_procs s) i = Going (Writes b k) -> reader s (pw i) = false ->
    ugoes s (u_becomes H s i (k false)) ws cs i.
  Proof.
    intros I E0 Rn. pose proof (state_le _ _ _ _ _ I E0) as Hi. pose proof (v_len _ _ _ I) as L.
    destruct (v_live _ _ _ I i _ E0) as [(G1 & G2 & G3)|(_ & B2 & _)]; [|discriminate].
    destruct (careful_w _ _ G2) as [Kf _]. destruct (reader_none s i Hi Rn) as [Op Rd].
    assert (Ne : i <> n).
    { intros ->. specialize (Op eq_refl). apply RI_open in Op; [|apply (v_rd _ _ _ I)]. rewrite (v_wopen _ _ _ I) in Op.
      rewrite (proj2 (live_w _ _ n (le_n _)) (going_Going _ _ _ E0)) in Op. discriminate. }
    specialize (Rd ltac:(lia)). destruct (givesn_writes _ _ _ _ _ _ _ G1) as [[_ X]|(c0 & w & Ec & Po & Ew & G1')]; [discriminate|].
    exists ws, c0. split; [|split; [lia|split; [now exists []|reflexivity]]].
    assert (Dk : forall j, dead (u_procs s) j -> dead (set_nth (u_procs s) i (Going (k false))) j) by (intros j; unfold dead; now rewrite (going_set _ _ _ _ _ E0)).
    eapply (uinv_update s ws cs i (Writes b k) _ (Going (k false))); eauto; try (cbn; reflexivity); try apply (v_rd _ _ _ I); try apply (v_sent _ _ _ I).
    - cbn [u_becomes u_rd u_procs u_subs]. rewrite (v_wopen _ _ _ I). apply live_same; [|reflexivity]. intros j. symmetry. now apply (going_set _ _ _ _ _ E0).
    - right. split; [split; [exact Ne|now apply Dk]|]. split; [exact Kf|]. split; [exact Po|]. intros HT.
      destruct (dead_Gone _ _ Rd) as (ok & Es). destruct (v_gone _ _ _ I (S i) ok ltac:(lia) Es) as (_ & X & _). specialize (X HT i eq_refl).
      unfold dead in X. rewrite (going_Going _ _ _ E0) in X. discriminate.
  Qed.

  (** Program [i] goes on; [s1] is [s] with the contents of a pipe, or the input, changed. *)
  Lemma go_on s ws cs i q s1 ws' q' c' : uinv s ws cs -> u_state (u_procs s) i = Going q ->
    u_procs s1 = u_procs s -> u_subs s1 = u_subs s -> RI (u_rd s1) -> r_sent (u_rd s1) ++ ws' n = out -> r_wopen (u_rd s1) = r_wopen (u_rd s) ->
    (forall j, j <= n -> j <> i -> feeds s1 ws' j = feeds s ws j) -> (forall j, j <= n -> j <> i -> ws' j = ws j) ->
    givesn c' q' (feeds s1 ws' i) true (ws' i) (Some (oks i)) -> careful q' -> (T -> forall j, i = S j -> reads_all q' (feeds s1 ws' i) \/ dead (u_procs s) j) ->
    uinv (u_becomes H s1 i q') ws' (upd cs i c').
  Proof.
    intros I E0 A1 A2 A3 A4 A5 A7 A8 G1 G2 G3.
    eapply (uinv_update s ws cs i q _ (Going q')); eauto.
    - cbn. now rewrite A1.
    - cbn [u_becomes u_rd u_procs u_subs]. rewrite A5, (v_wopen _ _ _ I), A1, A2. apply live_same; [|reflexivity]. intros j. symmetry. now apply (going_set _ _ _ _ _ E0).
    - left. split; [exact G1|]. split; [exact G2|]. intros HT j Ej. destruct (G3 HT j Ej) as [X|X]; [now left|right].
      unfold dead. cbn [u_becomes u_procs]. rewrite A1, (going_set _ _ _ _ _ E0). exact X.
  Qed.

  Lemma go_write s ws cs i b k : uinv s ws cs -> u_state (u_procs s) i = Going (Writes b k) -> ugoes s (u_becomes H (u_push H K s (pw i) b) i (k true)) ws cs i.
  Proof.
    intros I E0. pose proof (state_le _ _ _ _ _ I E0) as Hi. pose proof (v_len _ _ _ I) as L.
    destruct (v_live _ _ _ I i _ E0) as [(G1 & G2 & G3)|(_ & B2 & _)]; [|discriminate].
    destruct (careful_w _ _ G2) as [_ Kt]. destruct (givesn_writes _ _ _ _ _ _ _ G1) as [[_ X]|(c0 & w & Ec & Po & Ew & G1')]; [discriminate|].
    destruct (push_same s (pw i) b) as (P1 & P2 & P3).
    assert (Fd : forall j, j <= n -> feeds (u_push H K s (pw i) b) (upd ws i w) j = feeds s ws j).
    { intros [|j] Hj; cbn [feeds]; [exact P2|]. rewrite content_push. destruct (Nat.eqb_spec (pw j) (pw i)) as [Ej|Nj].
      - apply Hinj in Ej; [|lia|lia]. subst j. rewrite upd_eq, Ew, <- app_assoc. reflexivity.
      - rewrite upd_ne by congruence. reflexivity. }
    assert (Rd : exists rl, rstepsH (u_rd s) rl = Some (u_rd (u_push H K s (pw i) b)) /\ r_wopen (u_rd (u_push H K s (pw i) b)) = r_wopen (u_rd s) /\ r_sent (u_rd (u_push H K s (pw i) b)) ++ upd ws i w n = out).
    { pose proof (v_sent _ _ _ I) as Sent. unfold u_push. destruct (Nat.eqb_spec (pw i) K) as [X|X].
      - apply Hinj in X; [|lia|lia]. subst i. exists [LFeed [b]]. cbn [rsteps u_rd with_pend r_wopen r_sent]. rewrite rstep_feed.
        + split; [reflexivity|]. split; [reflexivity|]. rewrite upd_eq, <- app_assoc. cbn [List.app]. now rewrite <- Ew.
        + rewrite (v_wopen _ _ _ I). apply (live_w _ _ n (le_n _)). eapply going_Going; eauto.
      - exists []. cbn [rsteps u_rd]. split; [reflexivity|]. split; [reflexivity|]. rewrite upd_ne by congruence. exact Sent. }
    destruct Rd as (rl & Rd & Wo & Se). exists (upd ws i w), c0. split; [|split; [lia|split; [now exists rl|exact P3]]].
    apply (go_on s ws cs i (Writes b k)); auto.
    - exact (RI_steps rl _ _ (v_rd _ _ _ I) Rd).
    - intros j Hj Ne. now apply upd_ne.
    - rewrite upd_eq, Fd by exact Hi. exact G1'.
    - intros HT j Ej. rewrite Fd by exact Hi. destruct (G3 HT j Ej) as [X|X]; [left|now right]. now inversion X.
  Qed.

  (** Reading: a byte, or end of file. *)
  Lemma go_read s ws cs i k s1 : uinv s ws cs -> u_state (u_procs s) i = Going (Reads k) ->
    feeds s1 ws i = tl (feeds s ws i) -> (forall j, j <= n -> j <> i -> feeds s1 ws j = feeds s ws j) ->
    u_procs s1 = u_procs s -> u_rd s1 = u_rd s -> u_subs s1 = u_subs s ->
    (feeds s ws i = [] -> forall j, i = S j -> dead (u_procs s) j) ->
    ugoes s (u_becomes H s1 i (k (hd_error (feeds s ws i)))) ws cs i.
  Proof.
    intros I E0 F1 Fo P1 P2 P3 Ex.
    destruct (v_live _ _ _ I i _ E0) as [(G1 & G2 & G3)|(_ & B2 & _)]; [|discriminate].
    destruct (givesn_reads _ _ _ _ _ _ G1) as (_ & c0 & (N1 & N2 & N3) & G1'). exists ws, c0. split; [|split; [apply N3; right; discriminate|split; [exists []; cbn; now rewrite P2|exact P3]]].
    apply (go_on s ws cs i (Reads k)); auto.
    - rewrite P2. apply (v_rd _ _ _ I).
    - rewrite P2. apply (v_sent _ _ _ I).
    - now rewrite P2.
    - rewrite F1. exact G1'.
    - now apply careful_r.
    - intros HT j Ej. destruct (feeds s ws i) as [|b r] eqn:Ef; [right; auto|]. destruct (G3 HT j Ej) as [X|X]; [left|now right]. rewrite F1. cbn. now inversion X.
  Qed.

  Lemma uproc_goes s ws cs i s' : uinv s ws cs -> u_procH s i = Some s' -> ugoes s s' ws cs i.
  Proof.
    intros I. unfold u_proc. destruct (u_state (u_procs s) i) as [q|] eqn:E0; [|discriminate]. pose proof (state_le _ _ _ _ _ I E0) as Hi. pose proof (v_len _ _ _ I) as L.
    destruct q as [k|b k|ok].
    - destruct i as [|j].
      + assert (Ext : match u_in s with
                    | b :: r => Some (u_becomes H (mkU (u_procs s) (u_subs s) (u_pipes s) r (u_rd s)) 0 (k (Some b)))
                    | [] => Some (u_becomes H s 0 (k None))
                    end = Some s' -> ugoes s s' ws cs 0).
        { destruct (u_in s) as [|b r] eqn:Em0; intros X; injection X as <-.
          - pose proof (go_read s ws cs 0 k s I E0) as G. cbn [feeds] in G. rewrite Em0 in G. apply G; auto. discriminate.
          - pose proof (go_read s ws cs 0 k (mkU (u_procs s) (u_subs s) (u_pipes s) r (u_rd s)) I E0) as G. cbn [feeds u_in] in G. rewrite Em0 in G. apply G; auto; [|discriminate].
            intros [|j] _ Nj; [congruence|reflexivity]. }
        destruct (see 0 0) as [o|] eqn:Eo; [|contradiction]. destruct o as [f|k0|k0|f fl|t]; try (apply Ext; fail).
        destruct (ours np k0) eqn:Ou; [|apply Ext]. apply Nat.leb_le in Ou. specialize (Hin0 k0 eq_refl). lia.
      + rewrite (HinS j ltac:(lia)). assert (Ou : ours np (pw j) = true) by (apply Nat.leb_le, Hpw; lia). rewrite Ou.
        assert (Nk : pw j <> K) by (intros X; apply Hinj in X; lia).
        destruct (content s (pw j)) as [|b r] eqn:Ec.
        * destruct (writer s (u_procs s) (u_subs s) (pw j)) eqn:Wr; [discriminate|]. intros X. injection X as <-. rewrite writer_live in Wr by lia.
          assert (Dj : dead (u_procs s) j).
          { unfold dead. destruct (going (u_procs s) j) eqn:G; [|reflexivity]. rewrite (proj2 (live_w _ _ j ltac:(lia)) G) in Wr. discriminate. }
          assert (Ej : ws j = []).
          { destruct (dead_Gone _ _ Dj) as (ok & Es). destruct (v_gone _ _ _ I j ok ltac:(lia) Es) as ([X|[_ X]] & _); [exact X|]. unfold dead in X. rewrite (going_Going _ _ _ E0) in X. discriminate. }
          pose proof (go_read s ws cs (S j) k s I E0) as G. cbn [feeds] in G. rewrite Ec, Ej in G. apply G; auto. intros _ j' X. injection X as <-. exact Dj.
        * intros X. injection X as <-. destruct (pop_same s (pw j) Nk) as (Q1 & Q2 & Q3 & Q4).
          pose proof (go_read s ws cs (S j) k (u_pop H K s (pw j)) I E0) as G. cbn [feeds] in G. rewrite Ec in G. apply G; auto; [| |discriminate].
          -- rewrite content_pop, Nat.eqb_refl, Ec by exact Nk. reflexivity.
          -- intros [|j'] Hj' Ne; cbn [feeds]; [exact Q3|]. rewrite content_pop by exact Nk. destruct (Nat.eqb_spec (pw j') (pw j)) as [X|]; [apply Hinj in X; [congruence|lia|lia]|reflexivity].
    - rewrite (Hout i Hi). assert (Ou : ours np (pw i) = true) by (apply Nat.leb_le, Hpw; exact Hi). rewrite Ou. destruct (reader s (pw i)) eqn:Rn; cbn [negb].
      + destruct (Nat.ltb _ _); [|discriminate]. intros X. injection X as <-. now apply go_write.
      + intros X. injection X as <-. eapply go_epipe; eauto.
    - intros X. injection X as <-. now apply go_exit.
  Qed.

  (** A subshell exits. *)
  Definition waiting (bs : list (option bool)) : nat := List.length (filter (fun o => match o with None => true | Some _ => false end) bs).
  Lemma waits_lt bs j : waits bs j = true -> j < List.length bs.
  Proof. unfold waits. intros E. destruct (Nat.lt_ge_cases j (List.length bs)) as [X|X]; [exact X|]. rewrite nth_overflow in E by exact X. discriminate. Qed.
  Lemma waiting_set bs j ok : waits bs j = true -> S (waiting (set_nth bs j (Some ok))) = waiting bs.
  Proof.
    revert j. induction bs as [|o bs IH]; intros [|j] W; try discriminate; unfold waiting in *; cbn [set_nth filter].
    - unfold waits in W. cbn in W. destruct o; [discriminate|reflexivity].
    - specialize (IH j W). destruct o; cbn [List.length]; lia.
  Qed.
  Lemma uleave_goes s ws cs j s' : uinv s ws cs -> u_leaveH s j = Some s' ->
    uinv s' ws cs /\ (exists rl, rstepsH (u_rd s) rl = Some (u_rd s')) /\ S (waiting (u_subs s')) = waiting (u_subs s).
  Proof.
    intros I. unfold u_leave. destruct (nth_error subs j) as [b|] eqn:Eb; [|discriminate]. cbv zeta. set (own := seq (b_first b) (S (b_last b) - b_first b)).
    destruct (waits (u_subs s) j) eqn:Wj; [|discriminate]. cbn [andb]. destruct (forallb (fun i => negb (going (u_procs s) i)) own) eqn:Fa; [|discriminate].
    set (ok := if forallb (fun i => worked (u_state (u_procs s) i)) own then true else worked (u_state (u_procs s) (b_last b))).
    intros X. injection X as <-. pose proof (waits_lt _ _ Wj) as Hj. destruct (Hb j b Eb) as [Hf Hl].
    assert (Own : forall i, In i own <-> b_first b <= i <= b_last b) by (intros i; unfold own; rewrite in_seq; lia).
    assert (Wt : forall k, waits (set_nth (u_subs s) j (Some ok)) k = true -> waits (u_subs s) k = true).
    { intros k. unfold waits. rewrite nth_set_nth by exact Hj. destruct (Nat.eqb k j); [discriminate|auto]. }
    destruct (went s (u_procs s) (set_nth (u_subs s) j (Some ok)) (v_wopen _ _ _ I)) as [Wo Rd]; [auto|exact Wt|].
    set (s' := u_went H h_open fds sees subs shell x K s (u_procs s) (set_nth (u_subs s) j (Some ok))) in *.
    split; [|split; [exact Rd|now apply waiting_set]].
    assert (Fd : forall i, feeds s' ws i = feeds s ws i) by (intros [|i]; reflexivity).
    constructor; try (apply I; fail).
    - cbn. rewrite set_nth_length. apply I.
    - destruct Rd as (rl & Rd). exact (RI_steps rl _ _ (v_rd _ _ _ I) Rd).
    - exact Wo.
    - intros j' b' ok' Eb' Ej'. cbn [s' u_went u_subs u_procs] in Ej' |- *. destruct (Nat.eq_dec j' j) as [->|Ne].
      + assert (Eo : ok' = ok).
        { apply (nth_error_nth _ _ (Some true)) in Ej'. rewrite nth_set_nth, Nat.eqb_refl in Ej' by exact Hj. congruence. }
        subst ok'. rewrite Eb in Eb'. injection Eb' as <-. rewrite forallb_forall in Fa. split; [|split].
        * intros i Hi. apply negb_true_iff. apply Fa. now apply Own.
        * intros El. unfold ok. destruct (forallb _ own) eqn:Fw; [|now rewrite El]. rewrite forallb_forall in Fw. specialize (Fw (b_last b)). rewrite El in Fw. cbn in Fw. symmetry. apply Fw. apply Own. lia.
        * intros Al. unfold ok. replace (forallb _ own) with true; [reflexivity|]. symmetry. apply forallb_forall. intros i Hi. rewrite Al; [reflexivity|]. now apply Own.
      + apply (v_subs _ _ _ I j' b' ok' Eb'). assert (Hj' : j' < List.length (u_subs s)).
        { assert (Q : nth_error (set_nth (u_subs s) j (Some ok)) j' <> None) by congruence. apply nth_error_Some in Q. now rewrite set_nth_length in Q. }
        rewrite (nth_error_nth' _ (Some true) Hj'). f_equal. apply (nth_error_nth _ _ (Some true)) in Ej'. rewrite nth_set_nth in Ej' by exact Hj. destruct (Nat.eqb_spec j' j); [contradiction|exact Ej'].
  Qed.

  Lemma uinv_read s ws cs rl r : uinv s ws cs -> reader_only rl -> rstepH (u_rd s) rl = Some r -> uinv (mkU (u_procs s) (u_subs s) (u_pipes s) (u_in s) r) ws cs.
  Proof.
    intros I O X. destruct (rstep_keeps _ _ _ _ _ _ _ _ _ O X) as [K1 K2].
    assert (Fd : forall j, j <= n -> feeds (mkU (u_procs s) (u_subs s) (u_pipes s) (u_in s) r) ws j = feeds s ws j).
    { intros [|j] Hj; [reflexivity|]. cbn [feeds]. unfold u_content. destruct (Nat.eqb_spec (pw j) K) as [Y|]; [apply Hinj in Y; lia|reflexivity]. }
    pose proof (fun i q => state_le s ws cs i q I) as Le.
    destruct I as [I1 I2 I3 I4 I5 I6 I7 I8]. constructor; cbn [u_procs u_rd u_in u_subs]; try assumption.
    - eapply RI_step; eauto.
    - now rewrite K1.
    - now rewrite K2.
    - intros i q Eq. destruct (I6 i q Eq) as [(G1 & G2 & G3)|B]; [left|right; exact B]. unfold good. rewrite Fd by (eapply Le; eauto). split; [exact G1|]. split; [exact G2|exact G3].
  Qed.
  Lemma u_step_read s l s' : u_stepH s l = Some s' -> own_label l = false ->
    exists rl r, reader_only rl /\ rstepH (u_rd s) rl = Some r /\ s' = mkU (u_procs s) (u_subs s) (u_pipes s) (u_in s) r.
  Proof.
    destruct l as [l|j]; [|discriminate]. cbn [u_step]. destruct (negb (u_may H children s l)); [discriminate|]. destruct l as [i|m| | |ok]; [discriminate| | | |]; cbn [reader_label];
      (match goal with |- match ?e with _ => _ end = _ -> _ => destruct e as [r|] eqn:X; [|discriminate] end; intros Y; injection Y as <-; intros _;
       eexists _, r; split; [|split; [exact X|reflexivity]]; exact Logic.I).
  Qed.
  Definition left (cs : nat -> nat) (s : snet H) : nat := total cs n + waiting (u_subs s).
  Lemma uinv_step s ws cs l s' : uinv s ws cs -> u_stepH s l = Some s' ->
    exists ws' cs', uinv s' ws' cs' /\ left cs' s' + (if own_label l then 1 else 0) <= left cs s /\ exists rl, rstepsH (u_rd s) rl = Some (u_rd s').
  Proof.
    intros I X. unfold left. destruct (own_label l) eqn:Pl.
    - destruct l as [[i| | | |]|j]; try discriminate.
      + assert (X' : u_procH s i = Some s') by exact X.
        assert (Hi : i <= n).
        { unfold u_proc in X'. destruct (u_state (u_procs s) i) eqn:Eq; [|discriminate]. eapply state_le; eauto. }
        destruct (uproc_goes s ws cs i s' I X') as (ws' & c & I' & Lt & R & Es). exists ws', (upd cs i c). split; [exact I'|]. split; [|exact R].
        pose proof (total_upd cs i c n Hi Lt). rewrite Es. lia.
      + destruct (uleave_goes s ws cs j s' I X) as (I' & R & W). exists ws, cs. split; [exact I'|]. split; [lia|exact R].
    - destruct (u_step_read s l s' X Pl) as (rl & r & O & Er & ->). exists ws, cs. split; [eapply uinv_read; eauto|]. split; [cbn [u_subs]; lia|].
      exists [rl]. cbn [rsteps u_rd]. now rewrite Er.
  Qed.
  Lemma u_steps_app a : forall s b, u_stepsH s (a ++ b) = match u_stepsH s a with Some s' => u_stepsH s' b | None => None end.
  Proof. induction a as [|l a IH]; intros r b; cbn [u_steps List.app]; [reflexivity|]. destruct (u_stepH r l); [apply IH|reflexivity]. Qed.
  Lemma uinv_steps ls : forall s ws cs s', uinv s ws cs -> u_stepsH s ls = Some s' ->
    exists ws' cs', uinv s' ws' cs' /\ left cs' s' + List.length (filter own_label ls) <= left cs s /\ exists rl, rstepsH (u_rd s) rl = Some (u_rd s').
  Proof.
    induction ls as [|l ls IH]; intros s ws cs s' I; cbn [u_steps].
    - intros X. injection X as <-. exists ws, cs. split; [exact I|]. split; [cbn; lia|]. now exists [].
    - destruct (u_stepH s l) as [s1|] eqn:X; [|discriminate]. intros X2. destruct (uinv_step s ws cs l s1 I X) as (ws1 & cs1 & I1 & T1 & rl & R).
      destruct (IH s1 ws1 cs1 s' I1 X2) as (ws2 & cs2 & I2 & T2 & rl2 & R2). exists ws2, cs2. split; [exact I2|]. split.
      + cbn [filter]. destruct (own_label l); cbn [List.length]; lia.
      + exists (rl ++ rl2). now rewrite rsteps_app, R.
  Qed.
  Lemma state_start progs i : u_state (map Going progs) i = match nth_error progs i with Some q => Going q | None => Gone true end.
  Proof. unfold u_state. revert i. induction progs as [|p ps IH]; intros [|i]; cbn; auto. Qed.
  Lemma uinv_start h progs inp ws cs : RI (r_init H h) -> List.length progs = S n -> ws n = out ->
    (forall i q, nth_error progs i = Some q ->
       givesn (cs i) q (match i with 0 => inp | S j => ws j end) true (ws i) (Some (oks i)) /\ careful q /\
       (T -> forall j, i = S j -> reads_all q (ws j))) ->
    uinv (u_start H subs h progs inp) ws cs.
  Proof.
    intros R L W X.
    assert (Live : forall i, i <= n -> going (map Going progs) i = true).
    { intros i Hi. unfold going. rewrite state_start. destruct (nth_error progs i) eqn:E; [reflexivity|]. apply nth_error_None in E. lia. }
    constructor.
    - cbn. now rewrite map_length.
    - cbn. now rewrite map_length.
    - exact R.
    - exact W.
    - cbn [u_start u_rd r_init r_wopen u_procs u_subs]. symmetry. apply (live_w _ _ n (le_n _)). now apply Live.
    - intros i q Eq. cbn [u_start u_procs] in Eq. rewrite state_start in Eq. destruct (nth_error progs i) as [q'|] eqn:Ei; [|discriminate]. injection Eq as ->.
      destruct (X i q Ei) as (X1 & X2 & X3). left. assert (F : feeds (u_start H subs h progs inp) ws i = match i with 0 => inp | S j => ws j end).
      { destruct i as [|j]; [reflexivity|]. cbn [feeds]. unfold u_content. cbn [u_start u_rd r_init r_pend u_pipes]. now destruct (Nat.eqb _ _). }
      split; [rewrite F; exact X1|]. split; [exact X2|]. intros HT j ->. left. rewrite F. now apply X3.
    - intros i ok Hi E. specialize (Live i Hi). unfold going in Live. cbn [u_start u_procs] in E. rewrite E in Live. discriminate.
    - intros j b ok _ E. exfalso. cbn [u_start u_subs] in E. clear -E. revert j E. induction subs as [|b0 bs IH]; intros [|j] E; cbn in E; try discriminate. eauto.
  Qed.

  Hypothesis Hcap : 0 < cap.
  Definition can (s : snet H) : Prop := exists l s', own_label l = true /\ u_stepH s l = Some s'.
  (** Every subshell still waits for a program of its own. *)
  Definition waited (s : snet H) : Prop := forall j b, nth_error subs j = Some b -> waits (u_subs s) j = true -> exists i, b_first b <= i <= b_last b /\ going (u_procs s) i = true.
  Lemma waited_or s : can s \/ waited s.
  Proof.
    assert (G : forall m, can s \/ forall j b, j < m -> nth_error subs j = Some b -> waits (u_subs s) j = true -> exists i, b_first b <= i <= b_last b /\ going (u_procs s) i = true).
    { induction m as [|m [IH|IH]]; [right; intros; lia|now left|].
      destruct (nth_error subs m) as [b|] eqn:Eb.
      2: { right. intros j b Hj Ej. destruct (Nat.eq_dec j m) as [->|]; [congruence|]. apply IH; [lia|exact Ej]. }
      destruct (waits (u_subs s) m) eqn:Wm.
      2: { right. intros j b' Hj Ej Wj. destruct (Nat.eq_dec j m) as [->|]; [congruence|]. apply (IH j); [lia|exact Ej|exact Wj]. }
      destruct (forallb (fun i => negb (going (u_procs s) i)) (seq (b_first b) (S (b_last b) - b_first b))) eqn:Fa.
      - left. exists (ULeave m). cbn [u_step]. unfold u_leave. rewrite Eb, Wm. cbv zeta. rewrite Fa. cbn [andb]. eexists. split; reflexivity.
      - right. intros j b' Hj Ej Wj. destruct (Nat.eq_dec j m) as [->|]; [|apply (IH j); [lia|exact Ej|exact Wj]]. rewrite Eb in Ej. injection Ej as <-.
        assert (Ex : exists i, In i (seq (b_first b) (S (b_last b) - b_first b)) /\ going (u_procs s) i = true).
        { clear -Fa. induction (seq _ _) as [|i l IHl]; [discriminate|]. cbn in Fa. destruct (going (u_procs s) i) eqn:Gi; [exists i; split; [now left|exact Gi]|]. destruct (IHl Fa) as (k & A & B). exists k. split; [now right|exact B]. }
        destruct Ex as (i & Hi & Gi). apply in_seq in Hi. exists i. split; [lia|exact Gi]. }
    destruct (G (List.length subs)) as [X|X]; [now left|right]. intros j b Ej. apply (X j b); [|exact Ej]. apply nth_error_Some. congruence.
  Qed.
  (** The last of the programs up to [m] that is going on. *)
  Lemma highest ps m : (forall j, j <= m -> dead ps j) \/ exists i, i <= m /\ going ps i = true /\ forall j, i < j -> j <= m -> dead ps j.
  Proof.
    induction m as [|m [IH|(i & A & B & C)]].
    - destruct (going ps 0) eqn:G; [right; exists 0; split; [lia|]; split; [exact G|]; intros; lia|]. left. intros j Hj. replace j with 0 by lia. exact G.
    - destruct (going ps (S m)) eqn:G; [right; exists (S m); split; [lia|]; split; [exact G|]; intros; lia|]. left. intros j Hj. destruct (Nat.eq_dec j (S m)) as [->|]; [exact G|apply IH; lia].
    - destruct (going ps (S m)) eqn:G; [right; exists (S m); split; [lia|]; split; [exact G|]; intros; lia|]. right. exists i. split; [lia|]. split; [exact B|].
      intros j Hj Hm. destruct (Nat.eq_dec j (S m)) as [->|]; [exact G|apply C; lia].
  Qed.
  (** A program going on whose pipe is empty, or has no reader: somebody can go on. *)
  Lemma can_go s ws cs : uinv s ws cs -> waited s -> forall i, going (u_procs s) i = true -> content s (pw i) = [] \/ reader s (pw i) = false -> can s.
  Proof.
    intros I Wd i. induction i as [i IH] using lt_wf_ind. intros G0 P. unfold going in G0. destruct (u_state (u_procs s) i) as [q|] eqn:E0; [clear G0|discriminate].
    pose proof (state_le _ _ _ _ _ I E0) as Hi.
    destruct (u_procH s i) as [s'|] eqn:X; [exists (URun (NProc i)), s'; split; [reflexivity|exact X]|]. unfold u_proc in X. rewrite E0 in X. destruct q as [k|b k|ok]; [| |discriminate].
    - destruct i as [|j].
      { exfalso. destruct (see 0 0) as [o|] eqn:Eo; [|discriminate]. destruct o as [f|k0|k0|f fl|t]; try (destruct (u_in s); discriminate).
        destruct (ours np k0) eqn:Ou; [|destruct (u_in s); discriminate]. apply Nat.leb_le in Ou. specialize (Hin0 k0 eq_refl). lia. }
      rewrite (HinS j ltac:(lia)) in X. assert (Ou : ours np (pw j) = true) by (apply Nat.leb_le, Hpw; lia). rewrite Ou in X.
      destruct (content s (pw j)) eqn:Ec; [|discriminate]. destruct (writer s (u_procs s) (u_subs s) (pw j)) eqn:Wr; [|discriminate].
      rewrite writer_live in Wr by lia. destruct (proj1 (live_w _ _ j ltac:(lia)) Wr) as [Gj|(c & b & Eb & Wc & El)]; [apply (IH j); [lia|exact Gj|now left]|].
      destruct (Wd c b Eb Wc) as (i0 & Hi0 & Gi0). destruct (highest (u_procs s) j) as [Al|(h & Hh & Gh & Ab)]; [rewrite Al in Gi0 by lia; discriminate|].
      assert (Hhl : b_first b <= h). { destruct (Nat.lt_ge_cases h (b_first b)) as [Lt|]; [|assumption]. rewrite Ab in Gi0 by lia. discriminate. }
      apply (IH h); [lia|exact Gh|]. destruct (Nat.eq_dec h j) as [->|Ne]; [now left|right]. apply no_reader; [lia|apply Ab; lia|].
      intros c' b' Eb' Ef'. destruct (waits (u_subs s) c') eqn:Wc'; [|reflexivity]. exfalso. destruct (Wd c' b' Eb' Wc') as (i1 & Hi1 & Gi1).
      pose proof (Bd c b c' b' Eb Eb' ltac:(lia) ltac:(lia)). rewrite Ab in Gi1 by lia. discriminate.
    - rewrite (Hout i Hi) in X. assert (Ou : ours np (pw i) = true) by (apply Nat.leb_le, Hpw; exact Hi). rewrite Ou in X. destruct P as [P|P]; [|rewrite P in X; discriminate].
      rewrite P in X. destruct (negb _); [discriminate|]. cbn [List.length] in X. destruct (Nat.ltb_spec 0 cap); [discriminate|lia].
  Qed.
  Definition all_out (s : snet H) : Prop := (forall i, dead (u_procs s) i) /\ forall j, waits (u_subs s) j = false.
  Lemma can_step s ws cs : uinv s ws cs -> r_pend (u_rd s) = [] -> can s \/ all_out s.
  Proof.
    intros I P. destruct (waited_or s) as [X|Wd]; [now left|]. destruct (highest (u_procs s) n) as [Al|(h & Hh & Gh & Ab)].
    - right. assert (A : forall i, dead (u_procs s) i).
      { intros i. destruct (Nat.le_gt_cases i n); [auto|]. unfold dead, going, u_state. rewrite nth_overflow; [reflexivity|]. rewrite (v_len _ _ _ I). lia. }
      split; [exact A|]. intros j. destruct (waits (u_subs s) j) eqn:Wj; [|reflexivity]. exfalso. pose proof (waits_lt _ _ Wj) as Hj. rewrite (v_slen _ _ _ I) in Hj.
      destruct (nth_error subs j) as [b|] eqn:Eb; [|apply nth_error_None in Eb; lia]. destruct (Wd j b Eb Wj) as (i & _ & G). rewrite A in G. discriminate.
    - left. apply (can_go s ws cs I Wd h Gh). destruct (Nat.eq_dec h n) as [->|Ne]; [left|right].
      + unfold u_content. now rewrite Nat.eqb_refl.
      + apply no_reader; [lia|apply Ab; lia|]. intros c b Eb Ef. destruct (waits (u_subs s) c) eqn:Wc; [|reflexivity]. exfalso. destruct (Wd c b Eb Wc) as (i & Hi & Gi).
        pose proof (Hb c b Eb). rewrite Ab in Gi by lia. discriminate.
  Qed.
  Notation drainsH := (drains H h_wants h_event h_next h_resume h_open).
  Hypothesis D1 : forall r, RI r -> r_pend r <> [] -> exists r', drainsH r r' /\ List.length (r_pend r') < List.length (r_pend r).
  Hypothesis D2 : forall r, RI r -> r_pend r = [] -> r_wopen r = false -> exists r', drainsH r r' /\ r_phase r' = PAtEof.
  Definition ugets (s s' : snet H) : Prop := exists ls, u_stepsH s ls = Some s'.
  Lemma ugets_refl s : ugets s s.
  Proof. now exists []. Qed.
  Lemma ugets_trans s s1 s2 : ugets s s1 -> ugets s1 s2 -> ugets s s2.
  Proof. intros (l1 & E1) (l2 & E2). exists (l1 ++ l2). now rewrite u_steps_app, E1. Qed.
  Lemma ugets_step s l s1 : u_stepH s l = Some s1 -> ugets s s1.
  Proof. intros X. exists [l]. cbn [u_steps]. now rewrite X. Qed.
  Lemma drains_sub s ws cs r' : uinv s ws cs -> drainsH (u_rd s) r' ->
    uinv (mkU (u_procs s) (u_subs s) (u_pipes s) (u_in s) r') ws cs /\ ugets s (mkU (u_procs s) (u_subs s) (u_pipes s) (u_in s) r').
  Proof.
    intros I (rl & F & X). revert s I X. induction F as [|l rl O F IH]; intros s I; cbn [rsteps].
    - intros X. injection X as <-. destruct s as [a b c d e]. cbn in *. split; [exact I|]. apply ugets_refl.
    - destruct (rstepH (u_rd s) l) as [r1|] eqn:X1; [|discriminate]. intros X2.
      assert (S1 : u_stepH s (URun (to_n l)) = Some (mkU (u_procs s) (u_subs s) (u_pipes s) (u_in s) r1)).
      { destruct l; cbn in O; try contradiction; cbn [u_step to_n reader_label u_may negb]; now rewrite X1. }
      destruct (IH _ (uinv_read s ws cs l r1 I (reader_step_only _ O) X1) X2) as [I' El]. split; [exact I'|].
      eapply ugets_trans; [eapply ugets_step; exact S1|exact El].
  Qed.
  Lemma empties k : forall s ws cs, uinv s ws cs -> List.length (r_pend (u_rd s)) <= k ->
    exists s', ugets s s' /\ uinv s' ws cs /\ r_pend (u_rd s') = [] /\ u_subs s' = u_subs s.
  Proof.
    induction k as [k IH] using lt_wf_ind. intros s ws cs I Hk. destruct (r_pend (u_rd s)) as [|b0 r0] eqn:Ep; [exists s; auto using ugets_refl|].
    destruct (D1 _ (v_rd _ _ _ I)) as (r' & Dr & Lt); [congruence|]. destruct (drains_sub s ws cs r' I Dr) as [I' G]. rewrite Ep in Lt. cbn [List.length] in Lt, Hk.
    destruct (IH (List.length (r_pend r')) ltac:(lia) _ ws cs I' (le_n _)) as (s2 & G2 & I2 & P2 & Q2). exists s2. split; [eapply ugets_trans; eassumption|]. auto.
  Qed.
  Lemma all_die k : forall s ws cs, uinv s ws cs -> left cs s <= k -> exists s' ws' cs', ugets s s' /\ uinv s' ws' cs' /\ all_out s' /\ r_pend (u_rd s') = [].
  Proof.
    induction k as [k IH] using lt_wf_ind. intros s ws cs I Hk. destruct (empties _ s ws cs I (le_n _)) as (s1 & G1 & I1 & P1 & Q1).
    destruct (can_step s1 ws cs I1 P1) as [(l & s2 & Ol & X)|Ao]; [|exists s1, ws, cs; auto].
    destruct (uinv_step s1 ws cs l s2 I1 X) as (ws2 & cs2 & I2 & Lt & _). rewrite Ol in Lt. unfold left in Lt at 2. rewrite Q1 in Lt. fold (left cs s) in Lt.
    destruct (IH (left cs2 s2) ltac:(lia) s2 ws2 cs2 I2 (le_n _)) as (s3 & ws3 & cs3 & G3 & R3). exists s3, ws3, cs3. split; [|exact R3].
    eapply ugets_trans; [exact G1|]. eapply ugets_trans; [|exact G3]. eapply ugets_step. exact X.
  Qed.
  Lemma out_gone s : all_out s -> forallb (child_gone H s) children = true.
  Proof. intros [A B]. apply forallb_forall. intros [i|j] _; cbn; apply negb_true_iff; [apply A|apply B]. Qed.
  Lemma u_finishes s ws cs : uinv s ws cs -> exists ls s', u_stepsH s ls = Some s' /\ ended (r_out (u_rd s')).
  Proof.
    intros I. destruct (all_die _ s ws cs I (le_n _)) as (s1 & ws1 & cs1 & G1 & I1 & Ao & P1).
    destruct (D2 _ (v_rd _ _ _ I1) P1) as (r' & Dr & P).
    { rewrite (v_wopen _ _ _ I1). destruct (live _ _ _) eqn:Lv; [|reflexivity]. exfalso. destruct Ao as [A B]. apply live_spec in Lv. destruct Lv as [(i & m & _ & G & _)|(j & b & m & _ & W & _)].
      - rewrite A in G. discriminate.
      - rewrite B in W. discriminate. }
    destruct (drains_sub s1 ws1 cs1 r' I1 Dr) as [I2 G2]. destruct (ugets_trans _ _ _ G1 G2) as (ls & X). set (s2 := mkU (u_procs s1) (u_subs s1) (u_pipes s1) (u_in s1) r') in *.
    exists (ls ++ [URun (NAtEof (forallb (child_ok H s2) children))]). eexists. rewrite u_steps_app, X. cbn [u_steps u_step u_may reader_label].
    assert (Ao2 : all_out s2) by exact Ao. rewrite (out_gone s2 Ao2), Bool.eqb_reflx. cbn [andb negb]. unfold rstep. cbn [s2 u_rd]. rewrite P. split; [reflexivity|]. cbn. unfold ended. rewrite !in_app_iff.
    match goal with |- context [if ?e then _ else _] => destruct e end; cbn; auto.
  Qed.

  (** The end of the iteration. *)
  Hypothesis Ci : forall i, i <= n -> In (OwnProgram i) children \/ exists j b, In (OwnSub j) children /\ nth_error subs j = Some b /\ b_first b <= i <= b_last b.
  Hypothesis Cj : forall j, j < List.length subs -> In (OwnSub j) children.
  Hypothesis Cv : forall c, In c children -> match c with OwnProgram i => i <= n | OwnSub j => j < List.length subs end.
  Lemma gone_sub s ws cs j b : uinv s ws cs -> nth_error subs j = Some b -> waits (u_subs s) j = false -> exists ok, nth_error (u_subs s) j = Some (Some ok) /\ nth j (u_subs s) (Some true) = Some ok /\ left_ok (u_procs s) b ok.
  Proof.
    intros I Eb W. assert (Hj : j < List.length (u_subs s)) by (rewrite (v_slen _ _ _ I); apply nth_error_Some; congruence).
    pose proof (nth_error_nth' _ (Some true) Hj) as E. unfold waits in W. destruct (nth j (u_subs s) (Some true)) as [ok|] eqn:En; [|discriminate].
    exists ok. split; [exact E|]. split; [reflexivity|]. eapply (v_subs _ _ _ I); eauto.
  Qed.
  Lemma gone_all s ws cs : uinv s ws cs -> forallb (child_gone H s) children = true -> all_out s.
  Proof.
    intros I F. rewrite forallb_forall in F. 
    assert (A : forall i, i <= n -> dead (u_procs s) i).
    { intros i Hi. destruct (Ci i Hi) as [X|(j & b & X & Eb & Hb')]; apply F in X; cbn in X; apply negb_true_iff in X; [exact X|].
      destruct (gone_sub s ws cs j b I Eb X) as (ok & _ & _ & Z & _). now apply Z. }
    split.
    - intros i. destruct (Nat.le_gt_cases i n); [auto|]. unfold dead, going, u_state. rewrite nth_overflow; [reflexivity|]. rewrite (v_len _ _ _ I). lia.
    - intros j. destruct (waits (u_subs s) j) eqn:Wj; [|reflexivity]. pose proof (waits_lt _ _ Wj) as Hj. rewrite (v_slen _ _ _ I) in Hj. apply Cj in Hj. apply F in Hj. cbn in Hj. now rewrite Wj in Hj.
  Qed.
  Definition final (s : snet H) : Prop :=
    (ended (r_out (u_rd s)) -> all_out s) /\ (In GStop (r_out (u_rd s)) -> forallb (child_ok H s) children = true) /\ (In GFailed (r_out (u_rd s)) -> forallb (child_ok H s) children = false).
  Lemma out_stuck s l s' : all_out s -> own_label l = true -> u_stepH s l = Some s' -> False.
  Proof.
    intros [A B] Ol. destruct l as [[i| | | |]|j]; try discriminate; cbn [u_step u_may negb].
    - unfold u_proc. destruct (dead_Gone _ _ (A i)) as (ok & ->). discriminate.
    - unfold u_leave. destruct (nth_error subs j); [|discriminate]. rewrite B. cbn [andb]. discriminate.
  Qed.
  Lemma own_out s l s' : own_label l = true -> u_stepH s l = Some s' -> r_out (u_rd s') = r_out (u_rd s).
  Proof.
    intros Ol. destruct l as [[i| | | |]|j]; try discriminate; cbn [u_step u_may negb].
    - unfold u_proc, u_becomes, u_went, u_push, u_pop. intros E. repeat match type of E with context [match ?e with _ => _ end] => destruct e end; try discriminate; injection E as <-; reflexivity.
    - unfold u_leave, u_went. intros E. destruct (nth_error subs j); [|discriminate]. cbv zeta in E. destruct (_ && _); [|discriminate]. injection E as <-. reflexivity.
  Qed.
  Lemma final_step s ws cs l s' : uinv s ws cs -> final s -> u_stepH s l = Some s' -> final s'.
  Proof.
    intros I (G & G1 & G2) X. destruct (own_label l) eqn:Ol.
    - pose proof (own_out s l s' Ol X) as O. assert (No : ~ ended (r_out (u_rd s))) by (intros Z; eapply out_stuck; eauto).
      unfold final. unfold ended in *. rewrite O. split; [intros Z; now destruct No|]. split; intros Z; destruct No; auto.
    - destruct l as [l|j]; [|discriminate]. cbn [u_step] in X. destruct (negb (u_may H children s l)) eqn:M; [discriminate|]. apply negb_false_iff in M.
      assert (Same : forall r, (r_out r = r_out (u_rd s)) -> final (mkU (u_procs s) (u_subs s) (u_pipes s) (u_in s) r)).
      { intros r Er. unfold final. cbn [u_rd]. rewrite Er. split; [exact G|split; [exact G1|exact G2]]. }
      destruct l as [i|m| | |ok]; [discriminate| | | |]; cbn [reader_label] in X.
      + unfold rstep in X. destruct (readable H h_open (u_rd s)); [|discriminate]. destruct (h_wants _); [destruct (read_ok H (u_rd s) m); [|discriminate]|];
          destruct (h_event _ _) as [h w]; injection X as <-; now apply Same.
      + unfold rstep in X. destruct (r_phase (u_rd s)); try discriminate. injection X as <-. split; [|split]; cbn [u_rd]; intros X.
        * apply G. now apply after_no_end in X.
        * apply G1. apply after_out in X; auto.
        * apply G2. apply after_out in X; auto.
      + unfold rstep in X. destruct (r_phase (u_rd s)); try discriminate. injection X as <-. split; [|split]; cbn [u_rd]; intros X.
        * apply G. now apply after_no_end in X.
        * apply G1. apply after_out in X; auto.
        * apply G2. apply after_out in X; auto.
      + unfold rstep in X. destruct (r_phase (u_rd s)); try discriminate. injection X as <-. cbn [u_may] in M. apply andb_prop in M as [M M2]. apply eqb_prop in M2.
        unfold final. cbn [u_rd r_out]. split; [|split].
        * intros _. exact (gone_all s ws cs I M).
        * rewrite in_app_iff. intros [X|[X|[]]]; [now apply G1|]. change (forallb (child_ok H s) children = true). rewrite <- M2. destruct ok; [reflexivity|discriminate].
        * rewrite in_app_iff. intros [X|[X|[]]]; [now apply G2|]. change (forallb (child_ok H s) children = false). rewrite <- M2. destruct ok; [discriminate|reflexivity].
  Qed.
  Lemma final_steps ls : forall s ws cs s', uinv s ws cs -> final s -> u_stepsH s ls = Some s' -> final s'.
  Proof.
    induction ls as [|l ls IH]; intros s ws cs s' I F; cbn [u_steps]; [intros X; now injection X as <-|].
    destruct (u_stepH s l) as [s1|] eqn:X; [|discriminate]. destruct (uinv_step s ws cs l s1 I X) as (ws1 & cs1 & I1 & _). apply (IH s1 ws1 cs1 s' I1). exact (final_step s ws cs l s1 I F X).
  Qed.
  Lemma final_start h progs inp : final (u_start H subs h progs inp).
  Proof. split; [intros [[]|[]]|split; intros []]. Qed.
  Definition child_last (c : child) : nat := match c with OwnProgram i => i | OwnSub j => match nth_error subs j with Some b => b_last b | None => 0 end end.
  Lemma child_fails s ws cs c : uinv s ws cs -> all_out s -> In c children -> oks (child_last c) = false -> forallb (child_ok H s) children = false.
  Proof.
    intros I [A B] Hc Ho. destruct (forallb _ _) eqn:F; [|reflexivity]. rewrite forallb_forall in F. specialize (F c Hc). pose proof (Cv c Hc) as V. destruct c as [i|j]; cbn [child_last child_ok] in *.
    - destruct (dead_Gone _ _ (A i)) as (ok & E). rewrite E in F. cbn in F. destruct (v_gone _ _ _ I i ok V E) as (_ & _ & X & _). rewrite (X Ho) in F. discriminate.
    - destruct (nth_error subs j) as [b|] eqn:Eb; [|apply nth_error_None in Eb; lia]. destruct (gone_sub s ws cs j b I Eb (B j)) as (ok & _ & En & _ & Z & _). rewrite En in F.
      destruct (dead_Gone _ _ (A (b_last b))) as (r & E). destruct (v_gone _ _ _ I (b_last b) r (proj2 (Hb j b Eb)) E) as (_ & _ & X & _). rewrite (X Ho) in E. rewrite (Z E) in F. discriminate.
  Qed.
  Lemma children_work s ws cs : uinv s ws cs -> T -> (forall i, i <= n -> oks i = true) -> all_out s -> forallb (child_ok H s) children = true.
  Proof.
    intros I HT HO [A B].
    assert (G : forall i, i <= n -> u_state (u_procs s) i = Gone true).
    { intros i Hi. destruct (dead_Gone _ _ (A i)) as (ok & E). destruct (v_gone _ _ _ I i ok Hi E) as (_ & _ & _ & X). rewrite (X HT), (HO i Hi) in E. exact E. }
    apply forallb_forall. intros c Hc. pose proof (Cv c Hc) as V. destruct c as [i|j]; cbn [child_ok].
    - now rewrite G.
    - destruct (nth_error subs j) as [b|] eqn:Eb; [|apply nth_error_None in Eb; lia]. destruct (gone_sub s ws cs j b I Eb (B j)) as (ok & _ & En & _ & _ & Z). rewrite En. apply Z.
      intros i Hi. apply G. pose proof (Hb j b Eb). lia.
  Qed.
End Graph.
