(** A job is simulated by a network whose last process writes into a pipe that is read
    all the time. *)
From Verif Require Import Py RedirModel Os PerformModel PerformSpec RunModel RunSpec RunTopSpec IterModel IterSpec IterProofs FileModel FileSpec NetModel NetSpec NetProofs NetTop JobModel JobSpec.

Section Sim.
  Variables np cap n : nat.
  Variable fds : list nat.
  Variable sees : list (nat -> option ofd).
  Variable shell : tab.
  Variable f0 : fs.
  Variable olast : ofd.
  Variable rlast : redirect.                    (* the redirect of the output, if it is a file *)
  Notation see i := (nth i sees (fun _ => None)).
  Hypothesis Hlen : List.length sees = S n.
  Hypothesis Hin0 : forall k, see 0 0 = Some (OPipeR k) -> k < np.
  Hypothesis Hin1 : see 0 0 <> None.
  Hypothesis HinS : forall j, j < n -> see (S j) 0 = Some (OPipeR (np + j)).
  Hypothesis Hout : forall i, i < n -> see i 1 = Some (OPipeW (np + i)).
  Hypothesis Hlast : see n 1 = Some olast.
  Hypothesis Hlastp : forall k, olast = OPipeW k -> k < np.
  Hypothesis Hrlast : forall p f, olast = OFile p f -> r_source rlast = SPath p /\ r_flag rlast = f.
  Hypothesis Hsame : forall p f p' f', see 0 0 = Some (OFile p f) -> olast = OFile p' f' -> p <> p'.
  Hypothesis Hw : forall i m k, i <= n -> In m fds -> np <= k -> see i m = Some (OPipeW k) -> k = np + i /\ i < n.
  Hypothesis Hr : forall i m k, i <= n -> In m fds -> np <= k -> see i m = Some (OPipeR k) -> exists j, i = S j /\ k = np + j.
  Hypothesis H0 : In 0 fds.
  Hypothesis H1 : In 1 fds.
  Hypothesis Hsw : forall m k, refers shell m = Some (OPipeW k) -> k < np.
  Hypothesis Hsr : forall m k, refers shell m = Some (OPipeR k) -> k < np.

  (** The network. *)
  Definition vsee : nat -> option ofd := fun m => if Nat.eqb m 1 then Some (OPipeW (np + n)) else see n m.
  Definition vsees : list (nat -> option ofd) := set_nth sees n vsee.
  Definition vshell : tab := [Some (mkEnt (OPipeR (np + n)) true)].
  Notation V i := (nth i vsees (fun _ => None)).
  Notation K := (np + n).
  Notation nstepB := (nstep byte_handler byte_wants byte_event byte_next byte_resume bi_open np cap fds vsees vshell 0 K).
  Notation nstepsB := (nsteps byte_handler byte_wants byte_event byte_next byte_resume bi_open np cap fds vsees vshell 0 K).
  Notation procB := (proc_step byte_handler bi_open np cap fds vsees vshell 0 K).
  Notation jprocJ := (jproc np cap fds sees shell).
  Notation jstepJ := (jstep np cap fds sees shell).
  Notation jstepsJ := (jsteps np cap fds sees shell).
  Notation live := NetProofs.live.

  Lemma V_len : List.length vsees = S n.
  Proof. unfold vsees. now rewrite set_nth_length. Qed.
  Lemma V_eq i : V i = if Nat.eqb i n then vsee else see i.
  Proof. unfold vsees. rewrite nth_set_nth by lia. reflexivity. Qed.
  Lemma V0 i : V i 0 = see i 0.
  Proof. rewrite V_eq. destruct (Nat.eqb_spec i n) as [->|]; reflexivity. Qed.
  Lemma V1 i : i <= n -> V i 1 = Some (OPipeW (np + i)).
  Proof. intros Hi. rewrite V_eq. destruct (Nat.eqb_spec i n) as [->|]; [reflexivity|]. apply Hout. lia. Qed.
  Lemma VHin0 k : V 0 0 = Some (OPipeR k) -> k < np.
  Proof. rewrite V0. apply Hin0. Qed.
  Lemma VHinS j : j < n -> V (S j) 0 = Some (OPipeR (np + j)).
  Proof. rewrite V0. apply HinS. Qed.
  Lemma VHw i m k : i <= n -> In m fds -> np <= k -> V i m = Some (OPipeW k) -> k = np + i.
  Proof.
    intros Hi Hm Hk. rewrite V_eq. destruct (Nat.eqb_spec i n) as [->|]; [|intros E; now apply (Hw i m k)].
    unfold vsee. destruct (Nat.eqb_spec m 1); [congruence|]. intros E. now apply (Hw n m k) in E as [_ E]; auto; lia.
  Qed.
  Lemma VHr i m k : i <= n -> In m fds -> np <= k -> V i m = Some (OPipeR k) -> exists j, i = S j /\ k = np + j.
  Proof.
    intros Hi Hm Hk. rewrite V_eq. destruct (Nat.eqb_spec i n) as [->|]; [|now apply (Hr i m k)].
    unfold vsee. destruct (Nat.eqb_spec m 1); [discriminate|]. now apply Hr.
  Qed.
  Lemma vrefers m o : refers vshell m = Some o -> m = 0 /\ o = OPipeR K.
  Proof. Local Transparent tget. unfold refers, tget, vshell. destruct m as [|[|m] ]; cbn; try discriminate. intros E. injection E as <-. auto. Qed.
  Lemma VHsw m k : refers vshell m = Some (OPipeW k) -> k < np.
  Proof. intros E. apply vrefers in E as [_ E]. discriminate. Qed.
  Lemma VHsr m k : refers vshell m = Some (OPipeR k) -> np <= k -> m = 0.
  Proof. intros E _. now apply vrefers in E as [E _]. Qed.
  Lemma VHx : refers vshell 0 = Some (OPipeR K).
  Proof. reflexivity. Qed.

  (** Who is left, in the job. *)
  Lemma shell_w j : shell_holds shell (is_w (np + j)) = false.
  Proof. apply not_true_is_false. unfold shell_holds. rewrite existsb_exists. intros (m & _ & E). apply is_w_spec in E. apply Hsw in E. lia. Qed.
  Lemma shell_r j : shell_holds shell (is_r (np + j)) = false.
  Proof. apply not_true_is_false. unfold shell_holds. rewrite existsb_exists. intros (m & _ & E). apply is_r_spec in E. apply Hsr in E. lia. Qed.
  Lemma jwriter_spec t j : j < n -> j_writer fds sees shell t (np + j) = live (j_procs t) j.
  Proof.
    intros Hj. unfold j_writer. rewrite shell_w, orb_false_r. apply eq_true_iff_eq. rewrite (some_live_spec fds sees n Hlen). split.
    - intros (i & q & E & Hi & A). apply has_spec in A as (m & Im & Em). apply is_w_spec in Em.
      destruct (Hw i m (np + j) ltac:(lia) Im ltac:(lia) Em) as [Em' _]. assert (i = j) as -> by lia. unfold NetProofs.live. now rewrite E.
    - unfold NetProofs.live. destruct (nth j (j_procs t) None) as [q|] eqn:E; [|discriminate]. intros _. exists j, q. split; [exact E|]. split; [lia|].
      apply has_spec. exists 1. split; [exact H1|]. apply is_w_spec. now apply Hout.
  Qed.
  Lemma jreader_spec t j : j < n -> j_reader fds sees shell t (np + j) = live (j_procs t) (S j).
  Proof.
    intros Hj. unfold j_reader. rewrite shell_r, orb_false_r. apply eq_true_iff_eq. rewrite (some_live_spec fds sees n Hlen). split.
    - intros (i & q & E & Hi & A). apply has_spec in A as (m & Im & Em). apply is_r_spec in Em.
      destruct (Hr i m (np + j) ltac:(lia) Im ltac:(lia) Em) as (i' & -> & Em'). assert (i' = j) as -> by lia. unfold NetProofs.live. now rewrite E.
    - unfold NetProofs.live. destruct (nth (S j) (j_procs t) None) as [q|] eqn:E; [|discriminate]. intros _. exists (S j), q. split; [exact E|]. split; [lia|].
      apply has_spec. exists 0. split; [exact H0|]. apply is_r_spec. now apply HinS.
  Qed.

  (** ** The relation *)
  Definition rest_in (t : job) : list N :=
    match see 0 0 with
    | Some (OFile p _) => match j_desc t 0 0 with Some d => match j_fs t p with Some c => skipn (d_off d) c | None => [] end | None => [] end
    | _ => j_in t
    end.
  Definition writes (w : list N) : list fev := FOpen n :: map (fun b => FWrite n [b]) w.
  Definition sink (t : job) (w : list N) : Prop :=
    match olast with
    | OFile p _ => j_term t = [] /\ exists st d, frun rlast (fstart f0) (writes w) = Some st /\ f_fs st = j_fs t /\ f_desc st n = Some d /\
                     j_desc t n 1 = Some d /\ d_path d = p /\ d_writable d = true /\ forall q, q <> p -> j_fs t q = f0 q
    | o => j_term t = map (fun b => (o, b)) w /\ j_fs t = f0
    end.
  Record R (t : job) (s : net byte_handler) : Prop := {
    R_procs : n_procs s = j_procs t;
    R_pipes : forall j, j < n -> n_pipes s (np + j) = j_pipes t (np + j);
    R_in : n_in s = rest_in t;
    R_desc : forall p f, see 0 0 = Some (OFile p f) -> exists d, j_desc t 0 0 = Some d /\ d_path d = p;
    R_ok : n_ok s = j_ok t;
    R_sink : sink t (r_sent (n_rd s)) }.

  Lemma frun_snoc r es e : forall st st', frun r st es = Some st' -> frun r st (es ++ [e]) = fstep r st' e.
  Proof.
    induction es as [|e0 es IH]; intros st st'; cbn [frun List.app].
    - intros E. injection E as <-. cbn. now destruct (fstep r st e).
    - destruct (fstep r st e0); [apply IH|discriminate].
  Qed.
  Lemma path_eqb_false a b : a <> b -> path_eqb a b = false.
  Proof.
    intros Ne. destruct a, b; cbn; auto.
    - apply String.eqb_neq. congruence.
    - apply Nat.eqb_neq. congruence.
  Qed.
  Lemma fset_other f p q c : q <> p -> fset f p c q = f q.
  Proof. intros Ne. unfold fset. now rewrite path_eqb_false. Qed.
  (** The last process writes a byte. *)
  Lemma last_writes t b fb q s : R t s -> nth n (j_procs t) None = Some (Writes b fb) -> q = fb true ->
    exists t', jprocJ t n = Some t' /\
      R t' (becomes byte_handler (mkN (n_procs s) (n_pipes s) (n_in s) (with_pend byte_handler (n_rd s) (r_pend (n_rd s) ++ [b]) (r_sent (n_rd s) ++ [b])) (n_ok s)) n q).
  Proof.
    intros [RP RI RN RD RO RS] E ->. unfold jproc. rewrite E, Hlast. unfold sink in RS.
    assert (Plain : (forall p f, olast <> OFile p f) -> j_term t = map (fun b => (olast, b)) (r_sent (n_rd s)) /\ j_fs t = f0 ->
      R (goes_on (mkJ (j_procs t) (j_pipes t) (j_fs t) (j_desc t) (j_term t ++ [(olast, b)]) (j_in t) (j_ok t) (j_wait t)) n (fb true))
        (becomes byte_handler (mkN (n_procs s) (n_pipes s) (n_in s) (with_pend byte_handler (n_rd s) (r_pend (n_rd s) ++ [b]) (r_sent (n_rd s) ++ [b])) (n_ok s)) n (fb true))).
    { intros NF [RS1 RS2]. constructor; cbn; auto.
      - now rewrite RP.
      - now rewrite andb_true_r.
      - unfold sink. destruct olast; try (exfalso; eapply NF; reflexivity); cbn; rewrite map_app, RS1; auto. }
    destruct olast as [m|k|k|p f|k] eqn:Eo.
    - eexists. split; [reflexivity|]. apply Plain; [discriminate|exact RS].
    - eexists. split; [reflexivity|]. apply Plain; [discriminate|exact RS].
    - unfold ours. destruct (Nat.leb_spec np k) as [Hk|Hk]; [specialize (Hlastp k eq_refl); lia|].
      eexists. split; [reflexivity|]. apply Plain; [discriminate|exact RS].
    - clear Plain. destruct RS as (RT & st & d & F1 & F2 & F3 & F4 & F5 & F6 & F7). rewrite F4.
      assert (Ew : exists fs' d', sys_write (j_fs t) d [b] = (fs', Ok d') /\ d_path d' = p /\ d_writable d' = true /\ forall q, q <> p -> fs' q = j_fs t q).
      { unfold sys_write. rewrite F6. cbn [negb]. rewrite F5. destruct (j_fs t p) as [c|] eqn:Ec.
        - eexists _, _. split; [reflexivity|]. cbn. repeat split; auto. intros q Hq. now apply fset_other.
        - eexists _, _. split; [reflexivity|]. repeat split; auto. }
      destruct Ew as (fs' & d' & Ew & P1 & P2 & P3). rewrite Ew. eexists. split; [reflexivity|]. constructor; cbn; auto.
      + now rewrite RP.
      + rewrite RN. unfold rest_in. cbn. destruct (see 0 0) as [ [] |] eqn:E00; auto.
        assert (Ne : p0 <> p) by (eapply Hsame; eauto). rewrite P3 by exact Ne. now rewrite andb_false_r.
      + intros p0 f1 E0. rewrite andb_false_r. eauto.
      + now rewrite andb_true_r.
      + unfold sink. rewrite Eo. cbn [j_term j_fs j_desc goes_on turns set_desc]. split; [exact RT|].
        exists (put_desc st fs' n d'), d'. split; [|rewrite !Nat.eqb_refl; cbn; rewrite !Nat.eqb_refl; repeat split; auto; intros q Hq; rewrite P3 by exact Hq; auto].
        unfold writes in *. cbn [r_sent with_pend becomes n_rd]. rewrite map_app, app_comm_cons. change (map (fun b0 : N => FWrite n [b0]) [b]) with [FWrite n [b]]. rewrite (frun_snoc _ _ _ _ _ F1). cbn [fstep]. rewrite F3, F2, Ew. reflexivity.
    - eexists. split; [reflexivity|]. apply Plain; [discriminate|exact RS].
  Qed.

  (** ** Steps *)
  Variable out : list N.
  Variable es : nat -> option bool.
  Variable okf : nat -> bool.
  Variables C T : Prop.
  Hypothesis Hes : es n <> None.
  Hypothesis HT : T -> forall i, i <= n -> es i <> None.
  Hypothesis Hokf : C -> forall i, es i = Some false -> okf i = false.
  Hypothesis Hcap : 0 < cap.
  Notation invB := (inv byte_handler np vsees n BInv out es okf C T).
  Definition RI_step (r : byte_state) l r' (I : BInv r) (E : byte_step true r l = Some r') : BInv r' := BInv_step true r l r' I E.

  Lemma writerV s ps i : i <= n -> writer_left byte_handler bi_open fds vsees vshell 0 s ps (np + i) = live ps i.
  Proof. apply writer_spec; [apply V_len|apply V1|apply VHw|exact H1|apply VHsw]. Qed.
  Lemma readerV s i : i <= n -> reader_left byte_handler bi_open fds vsees vshell 0 s (np + i) = if Nat.eqb i n then bi_open (r_h (n_rd s)) else live (n_procs s) (S i).
  Proof. apply (reader_spec byte_handler bi_open np fds vsees vshell 0 n); [apply V_len|apply VHinS|apply VHr|exact H0|apply VHsr|apply VHx]. Qed.
  Lemma ours_np j : ours np (np + j) = true.
  Proof. unfold ours. apply Nat.leb_le. lia. Qed.
  Lemma not_K j : j < n -> (np + j =? K) = false.
  Proof. intros Hj. apply Nat.eqb_neq. lia. Qed.
  Lemma skipn_nth (l : list N) : forall k, skipn k l = match nth_error l k with Some b => b :: skipn (S k) l | None => [] end.
  Proof. induction l as [|a l IH]; intros [|k]; cbn [skipn nth_error]; try reflexivity. rewrite IH. destruct (nth_error l k); reflexivity. Qed.
  (** Process [i] goes on without any effect but on the pipes of this run. *)
  Lemma R_plain t s i q f g : R t s -> (forall j, j < n -> f (np + j) = g (np + j)) ->
    R (goes_on (mkJ (j_procs t) f (j_fs t) (j_desc t) (j_term t) (j_in t) (j_ok t) (j_wait t)) i q) (becomes byte_handler (mkN (n_procs s) g (n_in s) (n_rd s) (n_ok s)) i q).
  Proof.
    intros [RP RI RN RD RO RS] E. constructor; cbn; auto.
    - now rewrite RP.
    - intros j Hj. symmetry. auto.
    - now rewrite andb_true_r.
  Qed.
  Lemma R_stay t s i q : R t s -> R (goes_on t i q) (becomes byte_handler s i q).
  Proof.
    intros [RP RI RN RD RO RS]. constructor; cbn; auto.
    - now rewrite RP.
    - now rewrite andb_true_r.
  Qed.
  Definition agree (t : job) (s : net byte_handler) (i : nat) : Prop :=
    (jprocJ t i = None /\ procB s i = None) \/ (exists t' s', jprocJ t i = Some t' /\ procB s i = Some s' /\ R t' s') \/
    (procB s i = None /\ cap <= List.length (r_pend (n_rd s))).
  Lemma joint t s ws cs i : R t s -> invB s ws cs -> agree t s i.
  Proof.
    intros HR I. pose proof (R_procs t s HR) as RP.
    destruct (nth i (j_procs t) None) as [q|] eqn:Eq.
    2: { left. unfold jproc, proc_step. now rewrite RP, Eq. }
    assert (Hi : i <= n). { pose proof (nth_some_lt _ _ _ Eq). rewrite <- RP in H. rewrite (i_len _ _ _ _ _ _ _ _ _ _ _ _ _ I) in H. lia. }
    destruct q as [f|b f|ok].
    - (* reads *)
      destruct i as [|j].
      + right. left. assert (Shell : (forall p fl, see 0 0 <> Some (OFile p fl)) ->
          exists t', match j_in t with
                     | b :: r => Some (goes_on (mkJ (j_procs t) (j_pipes t) (j_fs t) (j_desc t) (j_term t) r (j_ok t) (j_wait t)) 0 (f (Some b)))
                     | [] => Some (goes_on t 0 (f None))
                     end = Some t' /\
          exists s', match n_in s with
                     | b :: r => Some (becomes byte_handler (mkN (n_procs s) (n_pipes s) r (n_rd s) (n_ok s)) 0 (f (Some b)))
                     | [] => Some (becomes byte_handler s 0 (f None))
                     end = Some s' /\ R t' s').
        { intros NF. assert (Ei : n_in s = j_in t). { rewrite (R_in t s HR). unfold rest_in. destruct (see 0 0) as [ [] |]; auto. exfalso. eapply NF. reflexivity. }
          rewrite Ei. destruct (j_in t) as [|b r].
          - eexists. split; [reflexivity|]. eexists. split; [reflexivity|]. now apply R_stay.
          - eexists. split; [reflexivity|]. eexists. split; [reflexivity|].
            destruct HR as [RP' RI RN RD RO RS]. constructor; cbn; auto.
            + now rewrite RP'.
            + unfold rest_in. cbn. destruct (see 0 0) as [ [] |]; auto. exfalso. eapply NF. reflexivity.
            + now rewrite andb_true_r. }
        assert (Eq' : nth 0 (n_procs s) None = Some (Reads f)) by now rewrite RP. unfold jproc, proc_step. rewrite Eq, Eq', V0. destruct (see 0 0) as [o|] eqn:E0; [|contradiction].
        destruct o as [m|k|k|p fl|k].
        all: try (destruct Shell as (t' & A & s' & B & D); [discriminate|]; exists t', s'; split; [exact A|split; [exact B|exact D]]).
        * assert (Hk : ours np k = false). { unfold ours. apply Nat.leb_gt. now apply Hin0. } rewrite Hk.
          destruct Shell as (t' & A & s' & B & D); [discriminate|]. exists t', s'. split; [exact A|split; [exact B|exact D]].
        * clear Shell. destruct (R_desc t s HR p fl E0) as (d & Ed & Ep). rewrite Ed.
          assert (Ei : n_in s = match file_read t d with Some b => b :: match j_fs t p with Some c => skipn (S (d_off d)) c | None => [] end | None => [] end).
          { rewrite (R_in t s HR). unfold rest_in, file_read. rewrite E0, Ed, Ep. destruct (j_fs t p) as [c|]; [apply skipn_nth|reflexivity]. }
          rewrite Ei. destruct (file_read t d) as [b|].
          -- eexists _, _. split; [reflexivity|]. split; [reflexivity|].
             destruct HR as [RP' RI RN RD RO RS]. constructor; cbn; auto.
             ++ now rewrite RP'.
             ++ unfold rest_in. rewrite E0. cbn. reflexivity.
             ++ intros p' f' E'. rewrite E0 in E'. injection E' as <- <-. eexists. split; [reflexivity|exact Ep].
             ++ now rewrite andb_true_r.
             ++ unfold sink in *. destruct olast; auto. cbn. destruct RS as (A & st & d0 & F1 & F2 & F3 & F4 & F5). split; [exact A|]. exists st, d0. rewrite andb_false_r. auto.
          -- eexists _, _. split; [reflexivity|]. split; [reflexivity|]. now apply R_stay.
      + unfold agree, jproc, proc_step. rewrite RP, Eq, V0, HinS, !ours_np, writerV, jwriter_spec by lia. rewrite <- RP.
        unfold content, pop. rewrite not_K by lia. rewrite (R_pipes t s HR) by lia. destruct (j_pipes t (np + j)) as [|b r] eqn:Ep.
        * destruct (NetProofs.live (n_procs s) j); [now left|]. right. left. eexists _, _. split; [reflexivity|]. split; [reflexivity|]. now apply R_stay.
        * right. left. eexists _, _. split; [reflexivity|]. split; [reflexivity|]. cbn [tl].
          unfold set_pipe. apply R_plain; [exact HR|]. intros j' Hj. destruct (np + j' =? np + j); [reflexivity|]. symmetry. now apply HR.
    - (* writes *)
      destruct (Nat.eq_dec i n) as [->|Ne].
      + assert (Op : bi_open (r_h (n_rd s)) = true).
        { destruct (bi_open (r_h (n_rd s))) eqn:Eo; [reflexivity|]. apply b_open_w in Eo; [|apply I]. rewrite (i_wopen _ _ _ _ _ _ _ _ _ _ _ _ _ I) in Eo. unfold NetProofs.live in Eo. rewrite RP, Eq in Eo. discriminate. }
        destruct (Nat.ltb_spec (List.length (r_pend (n_rd s))) cap) as [Lt|Ge].
        * right. left. destruct (last_writes t b f (f true) s HR Eq eq_refl) as (t' & J & R'). exists t'. eexists. split; [exact J|]. split; [|exact R'].
          unfold proc_step. rewrite RP, Eq, V1, ours_np, readerV, Nat.eqb_refl, Op by lia. cbn [negb]. unfold content, push. rewrite Nat.eqb_refl.
          destruct (Nat.ltb_spec (List.length (r_pend (n_rd s))) cap); [now rewrite RP|lia].
        * right. right. split; [|exact Ge]. unfold proc_step. rewrite RP, Eq, V1, ours_np, readerV, Nat.eqb_refl, Op by lia. cbn [negb]. unfold content. rewrite Nat.eqb_refl.
          destruct (Nat.ltb_spec (List.length (r_pend (n_rd s))) cap); [lia|reflexivity].
      + unfold agree, jproc, proc_step. rewrite RP, Eq, V1, Hout, !ours_np, readerV, jreader_spec by lia. rewrite <- RP.
        destruct (Nat.eqb_spec i n) as [|_]; [contradiction|]. unfold content, push. rewrite not_K by lia. rewrite (R_pipes t s HR) by lia.
        destruct (NetProofs.live (n_procs s) (S i)); cbn [negb].
        * destruct (_ <? cap); [|now left]. right. left. eexists _, _. split; [reflexivity|]. split; [reflexivity|].
          unfold set_pipe. apply R_plain; [exact HR|]. intros j Hj. destruct (np + j =? np + i); [reflexivity|]. symmetry. now apply HR.
        * right. left. eexists _, _. split; [reflexivity|]. split; [reflexivity|]. now apply R_stay.
    - right. left. unfold jproc, proc_step. rewrite RP, Eq. eexists _, _. split; [reflexivity|]. split; [reflexivity|].
      destruct HR as [RP' RI RN RD RO RS]. constructor; cbn; auto.
      + now rewrite RP'.
      + now rewrite RO.
  Qed.

  (** ** Runs *)
  Definition with_rd (s : net byte_handler) (r : byte_state) : net byte_handler := mkN (n_procs s) (n_pipes s) (n_in s) r (n_ok s).
  Lemma R_rd t s r : R t s -> r_sent r = r_sent (n_rd s) -> R t (with_rd s r).
  Proof. intros [RP RI RN RD RO RS] E. constructor; cbn; auto. now rewrite E. Qed.
  Lemma drain_keeps (r r' : byte_state) : bdrains r r' -> r_sent r' = r_sent r.
  Proof.
    intros (rl & F & E). revert r E. induction F as [|l rl O F IH]; intros r; cbn [rsteps].
    - intros E. now injection E as <-.
    - destruct (rstep _ _ _ _ _ _ _ r l) as [r1|] eqn:E1; [|discriminate]. intros E2. rewrite (IH r1 E2).
      eapply rstep_keeps; [|exact E1]. now apply reader_step_only.
  Qed.
  Lemma drained k : forall s ws cs, List.length (r_pend (n_rd s)) <= k -> invB s ws cs -> exists r, invB (with_rd s r) ws cs /\ r_pend r = [] /\ r_sent r = r_sent (n_rd s).
  Proof.
    induction k as [|k IH]; intros s ws cs Hk I.
    - exists (n_rd s). destruct s as [a b c d e]. unfold with_rd. cbn in *. split; [exact I|]. split; [|reflexivity]. destruct (r_pend d); [reflexivity|cbn in Hk; lia].
    - destruct (r_pend (n_rd s)) as [|b0 l0] eqn:E.
      + exists (n_rd s). destruct s as [a b c d e]. unfold with_rd. cbn in *. auto.
      + destruct (byte_D1 (n_rd s)) as (r1 & Dr & Lt); [apply I|congruence|].
        destruct (drains_net byte_handler byte_wants byte_event byte_next byte_resume bi_open np cap fds vsees vshell 0 n BInv RI_step out es okf C T s ws cs r1 I Dr) as [I1 _].
        destruct (IH (with_rd s r1) ws cs) as (r & A & B & D).
        * cbn. rewrite E in Lt. cbn [List.length] in *. lia.
        * exact I1.
        * exists r. split; [exact A|]. split; [exact B|]. rewrite D. now apply drain_keeps.
  Qed.
  Definition waited (t : job) : Prop := forall v, j_wait t = Some v -> (forall i, nth i (j_procs t) None = None) /\ v = j_ok t.
  Definition is_proc (l : jlabel) : bool := match l with JProc _ => true | JWait => false end.
  Definition reach (t : job) (ws : nat -> list N) (cs : nat -> nat) : Prop := waited t /\ exists s, R t s /\ invB s ws cs.
  Lemma jproc_wait t i t' : jprocJ t i = Some t' -> j_wait t' = j_wait t.
  Proof.
    unfold jproc. intros E. repeat match type of E with context [match ?e with _ => _ end] => destruct e end; try discriminate; injection E as <-; reflexivity.
  Qed.
  Lemma jproc_live t i t' : jprocJ t i = Some t' -> nth i (j_procs t) None <> None.
  Proof. unfold jproc. destruct (nth i (j_procs t) None); [discriminate|discriminate]. Qed.
  Lemma reach_step t ws cs l t' : reach t ws cs -> jstepJ t l = Some t' ->
    exists ws' cs', reach t' ws' cs' /\ (busy n es C -> total cs' n + (if is_proc l then 1 else 0) <= total cs n).
  Proof.
    intros [W (s & HR & I)] E. destruct l as [i|].
    - assert (W' : waited t').
      { intros v Hv. cbn in E. rewrite (jproc_wait _ _ _ E) in Hv. destruct (W v Hv) as [X _]. exfalso. apply jproc_live in E. apply E, X. }
      destruct (drained _ s ws cs (le_n _) I) as (r & I1 & P & Sn). pose proof (R_rd t s r HR Sn) as R1.
      destruct (joint t _ ws cs i R1 I1) as [[J _]|[(t1 & s1 & J & P1 & R2)|[_ X] ] ].
      + cbn in E. congruence.
      + cbn in E. assert (t1 = t') as -> by congruence.
        assert (NS : nstepB (with_rd s r) (NProc i) = Some s1) by exact P1.
        destruct (inv_nstep byte_handler byte_wants byte_event byte_next byte_resume bi_open np cap fds vsees vshell 0 n V_len VHin0 VHinS V1 VHw VHr H0 H1 VHsw VHsr VHx
          BInv RI_step b_open_w out es okf C T Hes HT Hokf _ ws cs (NProc i) s1 I1 NS) as (ws' & cs' & I' & B & _).
        exists ws', cs'. split; [split; [exact W'|eauto]|exact B].
      + cbn in X. rewrite P in X. cbn in X. lia.
    - cbn in E. destruct (j_wait t) eqn:Ew; [discriminate|]. destruct (forallb _ _) eqn:Ef; [|discriminate]. injection E as <-. exists ws, cs. split; [|cbn; lia]. split.
      + intros v Hv. cbn in Hv. injection Hv as <-. split; [|reflexivity]. cbn. intros i.
        destruct (nth i (j_procs t) None) as [q|] eqn:Eq; [|reflexivity]. pose proof (nth_some_lt _ _ _ Eq) as Lt.
        rewrite forallb_forall in Ef. specialize (Ef (Some q)). rewrite <- Eq in Ef at 1. specialize (Ef (nth_In _ _ Lt)). discriminate.
      + exists s. split; [|exact I]. destruct HR as [RP RI RN RD RO RS]. constructor; auto.
  Qed.
  Lemma reach_steps ls : forall t ws cs t', reach t ws cs -> jstepsJ t ls = Some t' ->
    exists ws' cs', reach t' ws' cs' /\ (busy n es C -> total cs' n + List.length (filter is_proc ls) <= total cs n).
  Proof.
    induction ls as [|l ls IH]; intros t ws cs t' Re; cbn [jsteps].
    - intros E. injection E as <-. exists ws, cs. split; [exact Re|cbn; lia].
    - destruct (jstepJ t l) as [t1|] eqn:E; [|discriminate]. intros E2. destruct (reach_step _ _ _ _ _ Re E) as (ws1 & cs1 & R1 & B1).
      destruct (IH _ _ _ _ R1 E2) as (ws2 & cs2 & R2 & B2). exists ws2, cs2. split; [exact R2|]. intros B. specialize (B1 B). specialize (B2 B). cbn [filter]. destruct (is_proc l); cbn [List.length]; lia.
  Qed.
  (** Backwards. *)
  Lemma back ls : forall t s ws cs s', Forall gentle ls -> R t s -> invB s ws cs -> nstepsB s ls = Some s' ->
    exists js t', jstepsJ t js = Some t' /\ R t' s' /\ j_wait t' = j_wait t.
  Proof.
    induction ls as [|l ls IH]; intros t s ws cs s' F HR I; cbn [nsteps].
    - intros E. injection E as <-. exists [], t. auto.
    - destruct (nstepB s l) as [s1|] eqn:E; [|discriminate]. intros E2. inversion F as [|? ? G F']; subst.
      destruct (inv_nstep byte_handler byte_wants byte_event byte_next byte_resume bi_open np cap fds vsees vshell 0 n V_len VHin0 VHinS V1 VHw VHr H0 H1 VHsw VHsr VHx
          BInv RI_step b_open_w out es okf C T Hes HT Hokf s ws cs l s1 I E) as (ws' & cs' & I' & _ & _).
      destruct (proc_label l) eqn:Pl.
      + destruct l as [i| | | |]; try discriminate. assert (P : procB s i = Some s1) by exact E.
        destruct (joint t s ws cs i HR I) as [[_ X]|[(t1 & s2 & J & P1 & R2)|[X _] ] ]; [congruence| |congruence].
        assert (s2 = s1) as -> by congruence. destruct (IH t1 s1 ws' cs' s' F' R2 I' E2) as (js & t' & A & B & D).
        exists (JProc i :: js), t'. cbn [jsteps jstep]. rewrite J. split; [exact A|]. split; [exact B|]. rewrite D. eapply jproc_wait; eauto.
      + destruct (nstep_read byte_handler byte_wants byte_event byte_next byte_resume bi_open np cap fds vsees vshell 0 n s l s1 E Pl) as (rl & r & O & Er & ->).
        apply (IH t (with_rd s r) ws' cs' s' F'); [|exact I'|exact E2]. apply (R_rd t s r HR). exact (proj1 (rstep_keeps _ _ _ _ _ _ _ _ _ O Er)).
  Qed.
  Lemma job_ends t ws cs : C -> reach t ws cs -> exists js t' v, jstepsJ t js = Some t' /\ j_wait t' = Some v.
  Proof.
    intros HC [W (s & HR & I)]. destruct (j_wait t) as [v|] eqn:Ew; [exists [], t, v; auto|].
    destruct (to_eof byte_handler byte_wants byte_event byte_next byte_resume bi_open np cap fds vsees vshell 0 n V_len VHin0 VHinS V1 VHw VHr H0 H1 VHsw VHsr VHx
          BInv RI_step b_open_w out es okf C T Hes HT Hokf Hcap byte_D1 byte_D2 s ws cs HC I) as (s' & ws' & cs' & (ls & G & E) & I' & D & _).
    destruct (back ls t s ws cs s' G HR I E) as (js & t' & A & B & Wt).
    assert (Gone : forallb (fun p : option prog => match p with Some _ => false | None => true end) (j_procs t') = true).
    { rewrite <- (R_procs _ _ B). eapply NetProofs.all_gone; [|exact D]. apply I'. }
    exists (js ++ [JWait]). eexists _, _. split.
    - assert (App : forall a t1 b, jstepsJ t1 (a ++ b) = match jstepsJ t1 a with Some t2 => jstepsJ t2 b | None => None end).
      { clear. induction a as [|l a IH]; intros t1 b; cbn [jsteps List.app]; [reflexivity|]. destruct (jstepJ t1 l); [apply IH|reflexivity]. }
      rewrite App, A. cbn [jsteps jstep]. rewrite Wt, Ew, Gone. reflexivity.
    - reflexivity.
  Qed.
  (** What can be said of every state. *)
  Lemma reach_says t ws cs : reach t ws cs ->
    (exists w rest, w ++ rest = out /\ sink t w /\ ((forall i, nth i (j_procs t) None = None) -> rest = [])) /\
    (C -> (forall i, nth i (j_procs t) None = None) -> forall i, i <= n -> es i = Some false -> j_ok t = false) /\
    (T -> (forall i, i <= n -> es i = Some true) -> j_ok t = true).
  Proof.
    intros [W (s & HR & I)]. pose proof (R_procs t s HR) as RP. pose proof (R_ok t s HR) as RO. split; [|split].
    - exists (r_sent (n_rd s)), (ws n). split; [apply I|]. split; [apply HR|]. intros D.
      destruct (i_dead _ _ _ _ _ _ _ _ _ _ _ _ _ I n (le_n _)) as [X|[X _] ]; [rewrite RP; apply D|exact X|lia].
    - intros HC D i Hi Ei. rewrite <- RO. refine (i_status _ _ _ _ _ _ _ _ _ _ _ _ _ I HC i Hi _ Ei). rewrite RP. apply D.
    - intros HH HE. rewrite <- RO. exact (i_ok _ _ _ _ _ _ _ _ _ _ _ _ _ I HH HE).
  Qed.
End Sim.

(** ** The start *)
Section Begin.
  Variables np n : nat.
  Variable sees : list (nat -> option ofd).
  Variable f0 : fs.
  Variable olast : ofd.
  Variable rlast : redirect.
  Notation see i := (nth i sees (fun _ => None)).
  Hypothesis HinS : forall j, j < n -> see (S j) 0 = Some (OPipeR (np + j)).
  Hypothesis Hout : forall i, i < n -> see i 1 = Some (OPipeW (np + i)).
  Hypothesis Hlast : see n 1 = Some olast.
  Hypothesis Hrlast : forall p f, olast = OFile p f -> r_source rlast = SPath p /\ r_flag rlast = f /\ N.land f (N.lor O_WRONLY O_RDWR) <> 0%N.
  Hypothesis Hsame : forall p f p' f', see 0 0 = Some (OFile p f) -> olast = OFile p' f' -> p <> p'.
  Hypothesis Hro : forall p f, see 0 0 = Some (OFile p f) -> f = O_RDONLY.

  Lemma open_quiet t i m : (forall p f, see i m <> Some (OFile p f)) -> open_one sees t i m = Some t.
  Proof. intros X. unfold open_one. destruct (see i m) as [ [] |] eqn:E; auto. exfalso. eapply X. reflexivity. Qed.
  Lemma open_app a : forall t b, open_all sees t (a ++ b) = match open_all sees t a with Some t' => open_all sees t' b | None => None end.
  Proof.
    induction a as [|i a IH]; intros t b; cbn [open_all List.app]; [reflexivity|]. destruct (open_one sees t i 0) as [t1|]; [|reflexivity].
    destruct (open_one sees t1 i 1); [apply IH|reflexivity].
  Qed.
  Lemma open_upto t k : k <= n -> open_all sees t (seq 0 k) = match k with 0 => Some t | S _ => open_one sees t 0 0 end.
  Proof.
    induction k as [|k IH]; intros Hk; [reflexivity|]. rewrite seq_S, open_app, IH by lia. cbn [Nat.add open_all]. destruct k as [|k].
    - destruct (open_one sees t 0 0) as [t1|]; [|reflexivity]. rewrite open_quiet; [reflexivity|]. intros p f. rewrite Hout by lia. discriminate.
    - destruct (open_one sees t 0 0) as [t1|]; [|reflexivity]. rewrite open_quiet by (intros p f; rewrite HinS by lia; discriminate).
      rewrite open_quiet; [reflexivity|]. intros p f. rewrite Hout by lia. discriminate.
  Qed.
  Lemma open_everything t : open_all sees t (seq 0 (S n)) = match open_one sees t 0 0 with Some t1 => open_one sees t1 n 1 | None => None end.
  Proof.
    rewrite seq_S, open_app, open_upto by lia. cbn [Nat.add open_all]. destruct n as [|m].
    - destruct (open_one sees t 0 0) as [t1|]; [|reflexivity]. now destruct (open_one sees t1 0 1).
    - destruct (open_one sees t 0 0) as [t1|]; [|reflexivity]. rewrite open_quiet by (intros p f; rewrite HinS by lia; discriminate). now destruct (open_one sees t1 (S m) 1).
  Qed.
  Lemma has_or a b c : N.land a (N.lor b c) <> 0%N -> FileModel.has a b || FileModel.has a c = true.
  Proof.
    rewrite N.land_lor_distr_r. unfold FileModel.has. intros X. destruct (N.eqb_spec (N.land a b) 0) as [E1|]; [|reflexivity]. destruct (N.eqb_spec (N.land a c) 0) as [E2|]; [|reflexivity].
    rewrite E1, E2 in X. now cbn in X.
  Qed.
  Lemma job_begins progs inp typed t : List.length progs = S n -> job_start sees f0 progs typed = Some t ->
    (forall p f, see 0 0 = Some (OFile p f) -> f0 p = Some inp) -> ((forall p f, see 0 0 <> Some (OFile p f)) -> inp = typed) ->
    R np n sees f0 olast rlast t (net_start byte_handler byte_init progs inp) /\ j_wait t = None.
  Proof.
    intros Lp E Hf Ht. unfold job_start in E. rewrite Lp, open_everything in E.
    set (t0 := mkJ (map Some progs) (fun _ => []) f0 (fun _ _ => None) [] typed true None) in *.
    destruct (open_one sees t0 0 0) as [t1|] eqn:E0; [|discriminate].
    assert (X1 : j_procs t1 = map Some progs /\ j_pipes t1 = (fun _ => []) /\ j_fs t1 = f0 /\ j_term t1 = [] /\ j_in t1 = typed /\ j_ok t1 = true /\ j_wait t1 = None /\
       j_desc t1 n 1 = None /\
       forall p f, see 0 0 = Some (OFile p f) -> exists d, j_desc t1 0 0 = Some d /\ d_path d = p /\ d_off d = 0).
    { unfold open_one in E0. destruct (see 0 0) as [ [m|k|k|p fl|k] |] eqn:Es; try (injection E0 as <-; repeat split; auto; intros p f Ep; discriminate).
      assert (fl = O_RDONLY) as -> by (eapply Hro; reflexivity). unfold sys_open in E0. cbn [j_fs t0] in E0. rewrite (Hf p O_RDONLY eq_refl) in E0. cbn in E0. injection E0 as <-. cbn.
      repeat split; auto. { now rewrite andb_false_r. } intros p' f Ep. injection Ep as <- <-. eexists. split; [reflexivity|]. auto. }
    destruct X1 as (Y1 & Y2 & Y3 & Y4 & Y5 & Y6 & Y7 & Y8 & Y9).
    assert (RI0 : forall t2, j_desc t2 0 0 = j_desc t1 0 0 -> j_in t2 = typed -> (forall p f, see 0 0 = Some (OFile p f) -> j_fs t2 p = f0 p) -> rest_in sees t2 = inp).
    { intros t2 A B D. unfold rest_in. rewrite A, B. destruct (see 0 0) as [ [m|k|k|p fl|k] |] eqn:Es; try (symmetry; apply Ht; discriminate).
      destruct (Y9 p fl eq_refl) as (d & -> & _ & ->). rewrite (D p fl eq_refl), (Hf p fl eq_refl). reflexivity. }
    unfold open_one in E. rewrite Hlast in E.
    assert (Plain : (forall p f, olast <> OFile p f) -> t1 = t -> R np n sees f0 olast rlast t (net_start byte_handler byte_init progs inp) /\ j_wait t = None).
    { intros NF <-. split; [|exact Y7]. constructor; cbn; auto.
      - intros j Hj. now rewrite Y2.
      - symmetry. apply RI0; auto. intros p f _. now rewrite Y3.
      - intros p f Ep. destruct (Y9 p f Ep) as (d & A & B & _). eauto.
      - unfold sink. destruct olast; try (exfalso; eapply NF; reflexivity); cbn; auto. }
    destruct olast as [m|k|k|p fl|k] eqn:Eo; try (apply Plain; [discriminate|congruence]). clear Plain.
    destruct (sys_open (j_fs t1) p fl) as [f' [d|] ] eqn:Eop; [|discriminate]. injection E as <-. split; [|exact Y7].
    destruct (Hrlast p fl eq_refl) as (A1 & A2 & A3). apply has_or in A3.
    assert (Opn : d_path d = p /\ d_writable d = true /\ forall q, q <> p -> f' q = f0 q).
    { rewrite Y3 in Eop. unfold sys_open in Eop. destruct (f0 p) as [c|].
      - injection Eop as <- <-. cbn. repeat split; auto. intros q Hq. destruct (_ && _); [now apply fset_other|reflexivity].
      - destruct (FileModel.has fl O_CREAT); [|discriminate]. injection Eop as <- <-. cbn. repeat split; auto. intros q Hq. now apply fset_other. }
    destruct Opn as (O1 & O2 & O3).
    constructor; cbn; auto.
    - intros j Hj. now rewrite Y2.
    - symmetry. apply RI0; cbn; auto.
      + now rewrite andb_false_r.
      + intros p' fl' Ep. apply O3. eapply Hsame; [exact Ep|reflexivity].
    - intros p' fl' Ep. rewrite andb_false_r. destruct (Y9 p' fl' Ep) as (d' & A & B & _). eauto.
    - unfold sink. cbn. split; [exact Y4|]. unfold writes, redirect_open. cbn. rewrite A1, A2, <- Y3, Eop. exists (put_desc (fstart (j_fs t1)) f' n d), d. split; [reflexivity|]. cbn. rewrite !Nat.eqb_refl. cbn. repeat split; auto. intros q Hq. rewrite Y3. now apply O3.
  Qed.
End Begin.
