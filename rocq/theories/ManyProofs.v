(** Proofs about several pipelines at the same time. *)
From Verif Require Import Py RedirModel Os PerformModel PerformSpec RunModel RunSpec RunTopSpec RunEnds RunMore RunStarted RunFinal IterModel NetModel NetSpec NetProofs NetTop SubTop ManyModel ManySpec.

Lemma nth_error_set_nth {A} (l : list A) : forall i v j, i < List.length l -> nth_error (set_nth l i v) j = if Nat.eqb j i then Some v else nth_error l j.
Proof. induction l as [|y l IH]; intros [|i] v [|j] Hi; cbn in *; try lia; auto. apply IH. lia. Qed.
Lemma set_nth_twice {A} (l : list A) : forall i v v', set_nth (set_nth l i v) i v' = set_nth l i v'.
Proof. induction l as [|y l IH]; intros [|i] v v'; cbn; auto. f_equal. apply IH. Qed.
Lemma nth_error_ext {A} (l : list A) : forall l', (forall i, nth_error l i = nth_error l' i) -> l = l'.
Proof.
  induction l as [|y l IH]; intros [|y' l'] E; auto; try (specialize (E 0); discriminate E).
  pose proof (E 0) as E0. injection E0 as ->. f_equal. apply IH. intros i. exact (E (S i)).
Qed.
Lemma find_unique {A} (f : A -> bool) (l : list A) j q : nth_error l j = Some q -> f q = true -> (forall i q', nth_error l i = Some q' -> f q' = true -> i = j) -> find f l = Some q.
Proof.
  revert j. induction l as [|y l IH]; intros [|j] E F U; cbn in *; try discriminate.
  - injection E as ->. now rewrite F.
  - destruct (f y) eqn:Fy; [specialize (U 0 y eq_refl Fy); lia|]. apply (IH j E F). intros i q' Ei Fi. specialize (U (S i) q' Ei Fi). lia.
Qed.
Lemma existsb_nth {A} (f : A -> bool) (l : list A) : existsb f l = true <-> exists i q, nth_error l i = Some q /\ f q = true.
Proof.
  rewrite existsb_exists. split.
  - intros (q & Hq & F). apply In_nth_error in Hq as [i Hi]. eauto.
  - intros (i & q & E & F). exists q. split; [eapply nth_error_In; exact E|exact F].
Qed.

Section Many.
  Variable H : Type.
  Variable h_wants : H -> bool.
  Variable h_event : H -> bytes -> H * bool.
  Variable h_next h_resume : H -> H * outcome.
  Variable h_open : H -> bool.
  Variable h0 : H.
  Hypothesis Open0 : h_open h0 = true.
  Hypothesis Open_event : forall h d, h_open h = false -> h_open (fst (h_event h d)) = false.
  Hypothesis Open_next : forall h, h_open h = false -> h_open (fst (h_next h)) = false.
  Hypothesis Open_resume : forall h, h_open h = false -> h_open (fst (h_resume h)) = false.
  Variable L : limits.
  Variable pf : ofd -> bool.
  Variables logfd maxfd cap np0 : nat.
  Hypothesis Hlog : 2 < logfd.
  Hypothesis Hmax : 2 < maxfd.
  Variable tab0 : tab.
  Variable o0 : ofd.
  Hypothesis R0 : refers tab0 0 = Some o0.
  Hypothesis R1 : refers tab0 1 <> None.
  Hypothesis R2 : tget tab0 2 <> None.
  Hypothesis Old0 : forall m o, refers tab0 m = Some o -> is_end o -> pipe_no o < np0.
  Notation fds := (proc_fds logfd maxfd).
  Notation sees := (p_sees H L logfd maxfd).
  Notation rstepH := (rstep H h_wants h_event h_next h_resume h_open true).
  Notation wstep := (w_step H h_wants h_event h_next h_resume h_open L logfd maxfd cap np0).
  Notation whas := (w_has H L logfd maxfd).

  (** What a pipeline would be, were it alone. *)
  Record ghost := mkG { g_c : list string; g_cs : list (list string); g_progs : list prog; g_s : st; g_s' : st; g_ls : list nlabel; g_t : net H }.
  Definition ga (g : ghost) : nat := s_np (g_s g).
  Definition gn (g : ghost) : nat := List.length (g_cs g).
  Definition alone (q : pjob H) (g : ghost) : net H -> nlabel -> option (net H) :=
    nstep H h_wants h_event h_next h_resume h_open (ga g) cap fds (sees q) (s_tab (g_s' g)) (p_x q) (ga g + gn g).
  Definition alones (q : pjob H) (g : ghost) : net H -> list nlabel -> option (net H) :=
    nsteps H h_wants h_event h_next h_resume h_open (ga g) cap fds (sees q) (s_tab (g_s' g)) (p_x q) (ga g + gn g).
  Record tied (w : world H) (q : pjob H) (g : ghost) : Prop := {
    t_launched : launched L pf logfd maxfd (g_c g) (g_cs g) (g_s g) (g_s' g) (p_its q) (p_x q);
    t_progs : List.length (g_progs g) = S (gn g);
    t_std : refers (s_tab (g_s g)) 0 = Some o0;
    t_K : p_K q = ga g + gn g;
    t_run : alones q g (net_start H h0 (g_progs g) []) (g_ls g) = Some (g_t g);
    t_procs : n_procs (g_t g) = p_procs q;
    t_rd : n_rd (g_t g) = p_rd q;
    t_ok : n_ok (g_t g) = p_ok q;
    t_in : n_in (g_t g) = [];
    t_pipes : forall i, i < gn g -> n_pipes (g_t g) (ga g + i) = w_pipes w (ga g + i);
    t_len : List.length (p_procs q) = S (gn g);
    t_wopen : r_wopen (p_rd q) = live (p_procs q) (gn g);
    t_np : np0 <= ga g /\ ga g + gn g < w_np w }.
  Record winv (w : world H) (gs : list ghost) : Prop := {
    v_len : List.length gs = List.length (w_jobs w);
    v_tied : forall j q g, nth_error (w_jobs w) j = Some q -> nth_error gs j = Some g -> tied w q g;
    v_apart : forall j1 j2 g1 g2, j1 <> j2 -> nth_error gs j1 = Some g1 -> nth_error gs j2 = Some g2 -> ga g1 + gn g1 < ga g2 \/ ga g2 + gn g2 < ga g1;
    v_in : w_in w = [];
    v_std : forall m, m <= 2 -> tget (w_tab w) m = tget tab0 m;
    v_w : forall m k, refers (w_tab w) m = Some (OPipeW k) -> k < np0;
    v_r : forall m k, refers (w_tab w) m = Some (OPipeR k) -> np0 <= k -> exists j q, nth_error (w_jobs w) j = Some q /\ m = p_x q /\ k = p_K q /\ h_open (r_h (p_rd q)) = true;
    v_x : forall j q, nth_error (w_jobs w) j = Some q -> h_open (r_h (p_rd q)) = true -> refers (w_tab w) (p_x q) = Some (OPipeR (p_K q));
    v_np : np0 <= w_np w;
    v_new : forall k, w_np w <= k -> w_pipes w k = [] }.

  (** What the processes of a pipeline have, and what the theorems of NetProofs.v need. *)
  Record parts (q : pjob H) (g : ghost) : Prop := {
    s_len : List.length (sees q) = S (gn g);
    s_in0 : nth 0 (sees q) (fun _ => None) 0 = Some o0;
    s_inS : forall j, j < gn g -> nth (S j) (sees q) (fun _ => None) 0 = Some (OPipeR (ga g + j));
    s_out : forall i, i <= gn g -> nth i (sees q) (fun _ => None) 1 = Some (OPipeW (ga g + i));
    s_w : forall i m k, i <= gn g -> In m fds -> np0 <= k -> nth i (sees q) (fun _ => None) m = Some (OPipeW k) -> k = ga g + i;
    s_r : forall i m k, i <= gn g -> In m fds -> np0 <= k -> nth i (sees q) (fun _ => None) m = Some (OPipeR k) -> exists j, i = S j /\ k = ga g + j;
    s_sw : forall m k, refers (s_tab (g_s' g)) m = Some (OPipeW k) -> k < ga g;
    s_sr : forall m k, refers (s_tab (g_s' g)) m = Some (OPipeR k) -> ga g <= k -> m = p_x q;
    s_x : refers (s_tab (g_s' g)) (p_x q) = Some (OPipeR (ga g + gn g)) }.
  Lemma in_fds m : In m fds <-> m < maxfd /\ m <> logfd.
  Proof. exact (fds_spec logfd maxfd m). Qed.
  Lemma fd0 : In 0 fds. Proof. apply in_fds. lia. Qed.
  Lemma fd1 : In 1 fds. Proof. apply in_fds. lia. Qed.
  Lemma old_o0 : is_end o0 -> pipe_no o0 < np0.
  Proof. exact (Old0 0 o0 R0). Qed.
  Lemma tied_parts w q g : tied w q g -> parts q g.
  Proof.
    intros T. pose proof (t_launched _ _ _ T) as HL.
    destruct (launched_facts L pf logfd maxfd _ _ _ _ _ _ HL) as (o & E0 & Li & Sees & Rx & Same). rewrite (t_std _ _ _ T) in E0. injection E0 as <-.
    assert (Cases : forall i m v, i <= gn g -> In m fds -> nth i (sees q) (fun _ => None) m = Some v -> v = match i with 0 => o0 | S j => OPipeR (ga g + j) end \/ v = OPipeW (ga g + i) \/ exists k, v = OTmp k).
    { intros i m v Hi Hm Es. apply in_fds in Hm as [Hm1 Hm2]. destruct (Sees i Hi) as (B0 & B1 & (k & B2) & B3). unfold ga. destruct m as [|[|[|m] ] ].
      - left. unfold p_sees in Es. congruence.
      - right. left. unfold p_sees in Es. congruence.
      - right. right. exists k. unfold p_sees in Es. congruence.
      - unfold p_sees in Es. rewrite B3 in Es by lia. discriminate. }
    destruct (t_np _ _ _ T) as [Np _].
    refine (chain_hyps L pf logfd maxfd _ _ _ _ _ _ HL (g_progs g) (t_progs _ _ _ T) (parts q g) _). intros A1 A2 A3 A4 A5 A6 A7 A8 A9 A10 A11 A12. constructor.
    - exact A1.
    - exact (proj1 (Sees 0 ltac:(lia))).
    - exact A4.
    - exact A5.
    - intros i m k Hi Hm Hk E. destruct (Cases i m _ Hi Hm E) as [X|[X|[k' X] ] ]; [|congruence|discriminate].
      destruct i; [|discriminate]. pose proof old_o0 as O. rewrite <- X in O. specialize (O Logic.I). cbn in O. lia.
    - intros i m k Hi Hm Hk E. destruct (Cases i m _ Hi Hm E) as [X|[X|[k' X] ] ]; [|congruence|discriminate].
      destruct i as [|j]; [pose proof old_o0 as O; rewrite <- X in O; specialize (O Logic.I); cbn in O; lia|]. exists j. split; [reflexivity|congruence].
    - exact A10.
    - exact A11.
    - exact A12.
  Qed.

  (** Who can write or read a pipe of pipeline j: only its own processes and reader. *)
  Lemma has_m test see : has fds test see = true <-> exists m, In m fds /\ test (see m) = true.
  Proof. unfold has. apply existsb_exists. Qed.
  Lemma live_some test : forall ps ss, some_live fds test ps ss = true <->
    exists i p, nth i ps None = Some p /\ i < List.length ss /\ has fds test (nth i ss (fun _ => None)) = true.
  Proof.
    induction ps as [|p ps IH]; intros ss; cbn [some_live].
    - split; [discriminate|]. intros (i & q & E & _). now destruct i.
    - destruct ss as [|s ss].
      + split; [discriminate|]. intros (i & q & _ & X & _). cbn in X. lia.
      + rewrite orb_true_iff, IH. split.
        * intros [X|(i & q & A & B & C)].
          -- destruct p as [q|]; [|discriminate]. exists 0, q. cbn. repeat split; [lia|exact X].
          -- exists (S i), q. cbn. repeat split; auto. lia.
        * intros ([|i] & q & A & B & C); cbn in *.
          -- left. now rewrite A.
          -- right. exists i, q. repeat split; auto. lia.
  Qed.
  Lemma w_is k o : is_w k o = true <-> o = Some (OPipeW k).
  Proof. destruct o as [[]|]; cbn; rewrite ?Nat.eqb_eq; split; try discriminate; try congruence. Qed.
  Lemma r_is k o : is_r k o = true <-> o = Some (OPipeR k).
  Proof. destruct o as [[]|]; cbn; rewrite ?Nat.eqb_eq; split; try discriminate; try congruence. Qed.
  Lemma live_w q g k : parts q g -> np0 <= k -> forall ps, some_live fds (is_w k) ps (sees q) = true <-> exists i, i <= gn g /\ k = ga g + i /\ live ps i = true.
  Proof.
    intros P Np ps. rewrite live_some. split.
    - intros (i' & p & Ei & Hi' & A). apply has_m in A as (m & Im & Em). rewrite (s_len _ _ P) in Hi'. apply w_is in Em. apply (s_w _ _ P) in Em; [|lia|exact Im|exact Np].
      exists i'. split; [lia|]. split; [exact Em|]. unfold live. now rewrite Ei.
    - intros (i & Hi & -> & A). unfold live in A. destruct (nth i ps None) as [p|] eqn:E; [|discriminate]. exists i, p. split; [exact E|]. rewrite (s_len _ _ P). split; [lia|].
      apply has_m. exists 1. split; [exact fd1|]. apply w_is. now apply (s_out _ _ P).
  Qed.
  Lemma live_r q g k : parts q g -> np0 <= k -> forall ps, some_live fds (is_r k) ps (sees q) = true <-> exists i, i < gn g /\ k = ga g + i /\ live ps (S i) = true.
  Proof.
    intros P Np ps. rewrite live_some. split.
    - intros (i' & p & Ei & Hi' & A). apply has_m in A as (m & Im & Em). rewrite (s_len _ _ P) in Hi'. apply r_is in Em. apply (s_r _ _ P) in Em as (j & -> & Em); [|lia|exact Im|exact Np].
      exists j. split; [lia|]. split; [exact Em|]. unfold live. now rewrite Ei.
    - intros (i & Hi & -> & A). unfold live in A. destruct (nth (S i) ps None) as [p|] eqn:E; [|discriminate]. exists (S i), p. split; [exact E|]. rewrite (s_len _ _ P). split; [lia|].
      apply has_m. exists 0. split; [exact fd0|]. apply r_is. now apply (s_inS _ _ P).
  Qed.
  Definition alike (jobs jobs' : list (pjob H)) : Prop :=
    List.length jobs' = List.length jobs /\ forall j q q', nth_error jobs j = Some q -> nth_error jobs' j = Some q' -> p_its q' = p_its q.
  Lemma sees_alike (q q' : pjob H) : p_its q' = p_its q -> sees q' = sees q.
  Proof. unfold p_sees. now intros ->. Qed.
  Lemma same_job w gs j1 j2 q1 g1 q2 g2 i1 i2 : winv w gs -> nth_error (w_jobs w) j1 = Some q1 -> nth_error gs j1 = Some g1 -> nth_error (w_jobs w) j2 = Some q2 -> nth_error gs j2 = Some g2 ->
    i1 <= gn g1 -> i2 <= gn g2 -> ga g1 + i1 = ga g2 + i2 -> j1 = j2 /\ g1 = g2 /\ q1 = q2 /\ i1 = i2.
  Proof.
    intros V Q1 G1 Q2 G2 I1 I2 E. destruct (Nat.eq_dec j1 j2) as [->|Ne].
    - rewrite Q1 in Q2. injection Q2 as ->. rewrite G1 in G2. injection G2 as ->. repeat split; lia.
    - destruct (v_apart _ _ V j1 j2 g1 g2 Ne G1 G2); lia.
  Qed.
  Lemma ghost_of w gs j q : winv w gs -> nth_error (w_jobs w) j = Some q -> exists g, nth_error gs j = Some g.
  Proof.
    intros V E. destruct (nth_error gs j) as [g|] eqn:Eg; [eauto|]. apply nth_error_None in Eg. assert (j < List.length (w_jobs w)) by (apply nth_error_Some; congruence).
    rewrite (v_len _ _ V) in Eg. lia.
  Qed.
  Lemma job_of w gs j g : winv w gs -> nth_error gs j = Some g -> exists q, nth_error (w_jobs w) j = Some q.
  Proof.
    intros V E. destruct (nth_error (w_jobs w) j) as [q|] eqn:Eg; [eauto|]. apply nth_error_None in Eg. assert (j < List.length gs) by (apply nth_error_Some; congruence).
    rewrite (v_len _ _ V) in *. lia.
  Qed.
  Lemma tab_lt t m o : refers t m = Some o -> m < List.length t.
  Proof. Local Transparent tget. unfold refers, tget. intros E. apply nth_error_Some. destruct (nth_error t m); [discriminate|]. discriminate E. Qed.
  Lemma has_w w gs jobs' j q g q' i : winv w gs -> alike (w_jobs w) jobs' -> nth_error (w_jobs w) j = Some q -> nth_error gs j = Some g -> nth_error jobs' j = Some q' ->
    i <= gn g -> whas (is_w (ga g + i)) (w_tab w) jobs' = live (p_procs q') i.
  Proof.
    intros V [Al1 Al2] Eq Eg Eq' Hi. pose proof (v_tied _ _ V _ _ _ Eq Eg) as T. destruct (t_np _ _ _ T) as [Np _]. unfold w_has.
    assert (X : existsb (fun m => is_w (ga g + i) (refers (w_tab w) m)) (seq 0 (List.length (w_tab w))) = false).
    { apply not_true_is_false. rewrite existsb_exists. intros (m & _ & E). apply w_is in E. apply (v_w _ _ V) in E. lia. }
    rewrite X, orb_false_r. apply eq_true_iff_eq. rewrite existsb_nth. split.
    - intros (j2 & q2' & E2' & A). assert (E2 : exists q2, nth_error (w_jobs w) j2 = Some q2).
      { destruct (nth_error (w_jobs w) j2) as [q2|] eqn:E2; [eauto|]. apply nth_error_None in E2. assert (j2 < List.length jobs') by (apply nth_error_Some; congruence). lia. }
      destruct E2 as [q2 E2]. destruct (ghost_of _ _ _ _ V E2) as [g2 Eg2]. rewrite (sees_alike _ _ (Al2 _ _ _ E2 E2')) in A.
      apply (live_w q2 g2) in A as (i2 & Hi2 & Ek & A); [|eapply tied_parts; exact (v_tied _ _ V _ _ _ E2 Eg2)|lia].
      destruct (same_job _ _ _ _ _ _ _ _ _ _ V Eq Eg E2 Eg2 Hi Hi2 Ek) as (J1 & _ & _ & J4). subst j2 i2. rewrite Eq' in E2'. injection E2' as <-. exact A.
    - intros A. exists j, q'. split; [exact Eq'|]. rewrite (sees_alike _ _ (Al2 _ _ _ Eq Eq')). apply (live_w q g); [eapply tied_parts; exact T|lia|]. exists i. auto.
  Qed.
  Lemma has_r w gs j q g i : winv w gs -> nth_error (w_jobs w) j = Some q -> nth_error gs j = Some g ->
    i <= gn g -> whas (is_r (ga g + i)) (w_tab w) (w_jobs w) = if Nat.eqb i (gn g) then h_open (r_h (p_rd q)) else live (p_procs q) (S i).
  Proof.
    intros V Eq Eg Hi. pose proof (v_tied _ _ V _ _ _ Eq Eg) as T. destruct (t_np _ _ _ T) as [Np _]. unfold w_has.
    apply eq_true_iff_eq. rewrite orb_true_iff, existsb_nth, existsb_exists. split.
    - intros [(j2 & q2 & E2 & A)|(m & _ & A)].
      + destruct (ghost_of _ _ _ _ V E2) as [g2 Eg2]. destruct (proj1 (live_r q2 g2 (ga g + i) (tied_parts _ _ _ (v_tied _ _ V _ _ _ E2 Eg2)) ltac:(lia) _) A) as (i2 & Hi2 & Ek & A').
        destruct (same_job _ _ _ _ _ _ _ _ _ i2 V Eq Eg E2 Eg2 Hi ltac:(lia) Ek) as (J1 & J2 & J3 & J4). subst j2 g2 q2 i2. destruct (Nat.eqb_spec i (gn g)); [lia|]. exact A'.
      + apply r_is in A. destruct (v_r _ _ V _ _ A ltac:(lia)) as (j2 & q2 & E2 & -> & Ek & Op). destruct (ghost_of _ _ _ _ V E2) as [g2 Eg2].
        rewrite (t_K _ _ _ (v_tied _ _ V _ _ _ E2 Eg2)) in Ek.
        destruct (same_job _ _ _ _ _ _ _ _ _ _ V Eq Eg E2 Eg2 Hi (le_n _) Ek) as (J1 & J2 & J3 & J4). subst j2 g2 q2 i. now rewrite Nat.eqb_refl.
    - destruct (Nat.eqb_spec i (gn g)) as [->|Ne].
      + intros Op. right. pose proof (v_x _ _ V _ _ Eq Op) as E. rewrite (t_K _ _ _ T) in E. exists (p_x q). split; [apply in_seq; split; [lia|cbn; eapply tab_lt; exact E]|]. now apply r_is.
      + intros A. left. exists j, q. split; [exact Eq|]. apply (live_r q g); [eapply tied_parts; exact T|lia|]. exists i. repeat split; auto. lia.
  Qed.
  (** The same for the pipeline alone. *)
  Lemma alone_w q g i t ps : parts q g -> np0 <= ga g -> i <= gn g -> writer_left H h_open fds (sees q) (s_tab (g_s' g)) (p_x q) t ps (ga g + i) = live ps i.
  Proof.
    intros P Np Hi. unfold writer_left. assert (X : shell_has H h_open (s_tab (g_s' g)) (p_x q) (is_w (ga g + i)) (n_rd t) = false).
    { apply not_true_is_false. unfold shell_has. rewrite existsb_exists. intros (m & _ & E). apply andb_prop in E as [E _]. apply w_is in E. apply (s_sw _ _ P) in E. lia. }
    rewrite X, orb_false_r. apply eq_true_iff_eq. rewrite (live_w q g _ P) by lia. split.
    - intros (i2 & _ & E & A). now assert (i2 = i) as -> by lia.
    - intros A. exists i. auto.
  Qed.
  Lemma alone_r q g i t : parts q g -> np0 <= ga g -> i <= gn g ->
    reader_left H h_open fds (sees q) (s_tab (g_s' g)) (p_x q) t (ga g + i) = if Nat.eqb i (gn g) then h_open (r_h (n_rd t)) else live (n_procs t) (S i).
  Proof.
    intros P Np Hi. unfold reader_left. apply eq_true_iff_eq. rewrite orb_true_iff, (live_r q g _ P) by lia. unfold shell_has. rewrite existsb_exists. split.
    - intros [(i2 & A & B & C)|(m & _ & A)].
      + assert (i2 = i) as -> by lia. destruct (Nat.eqb_spec i (gn g)); [lia|exact C].
      + apply andb_prop in A as [A B]. apply r_is in A. assert (m = p_x q) as -> by (eapply (s_sr _ _ P); [exact A|lia]). rewrite (s_x _ _ P) in A. assert (Ei : i = gn g) by (injection A; lia). subst i.
        rewrite Nat.eqb_refl in *. exact B.
    - destruct (Nat.eqb_spec i (gn g)) as [->|Ne].
      + intros Op. right. exists (p_x q). split; [apply in_seq; split; [lia|cbn; eapply tab_lt; exact (s_x _ _ P)]|]. rewrite (s_x _ _ P), Nat.eqb_refl, Op. cbn. now rewrite Nat.eqb_refl.
      + intros A. left. exists i. repeat split; auto. lia.
  Qed.

  (** Changing pipeline j only. *)
  Definition grown (g : ghost) (l : nlabel) (t : net H) : ghost := mkG (g_c g) (g_cs g) (g_progs g) (g_s g) (g_s' g) (g_ls g ++ [l]) t.
  Lemma nsteps_snoc q g ls : forall t l t1 t2, alones q g t ls = Some t1 -> alone q g t1 l = Some t2 -> alones q g t (ls ++ [l]) = Some t2.
  Proof.
    induction ls as [|l1 ls IH]; intros t l t1 t2; cbn.
    - intros E. injection E as ->. unfold alone. now intros ->.
    - destruct (nstep _ _ _ _ _ _ _ _ _ _ _ _ _ t l1) as [t'|]; [|discriminate]. apply IH.
  Qed.
  Lemma winv_upd w gs j q g l t' tab' pipes' nt' : winv w gs -> nth_error (w_jobs w) j = Some q -> nth_error gs j = Some g -> alone q g (g_t g) l = Some t' ->
    n_in t' = [] -> (forall i, i < gn g -> n_pipes t' (ga g + i) = pipes' (ga g + i)) -> (forall k, k < ga g \/ ga g + gn g <= k -> pipes' k = w_pipes w k) ->
    r_wopen (n_rd t') = live (n_procs t') (gn g) -> List.length (n_procs t') = S (gn g) ->
    (tab' = w_tab w /\ h_open (r_h (n_rd t')) = h_open (r_h (p_rd q)) \/
     h_open (r_h (p_rd q)) = true /\ h_open (r_h (n_rd t')) = false /\ tab' = tset (w_tab w) (p_x q) None) ->
    winv (mkW tab' (w_np w) nt' pipes' [] (set_nth (w_jobs w) j (mkP (p_its q) (p_x q) (p_K q) (n_procs t') (n_rd t') (n_ok t')))) (set_nth gs j (grown g l t')).
  Proof.
    intros V Eq Eg El Ein Ep Eo Ew Elen Et. pose proof (v_tied _ _ V _ _ _ Eq Eg) as T.
    assert (Hj : j < List.length (w_jobs w)) by (apply nth_error_Some; congruence). assert (Hg : j < List.length gs) by (apply nth_error_Some; congruence).
    assert (Ref : forall m, refers tab' m = if Nat.eqb m (p_x q) && (h_open (r_h (p_rd q)) && negb (h_open (r_h (n_rd t')))) then None else refers (w_tab w) m).
    { intros m. destruct Et as [[-> ->]|(-> & -> & ->)].
      - now destruct (h_open (r_h (p_rd q))); cbn; rewrite andb_false_r.
      - cbn. rewrite andb_true_r. unfold refers. rewrite tget_tset. now destruct (Nat.eqb m (p_x q)). }
    assert (Xnew : h_open (r_h (p_rd q)) = true -> refers (w_tab w) (p_x q) = Some (OPipeR (ga g + gn g))) by (intros O; rewrite (v_x _ _ V _ _ Eq O), (t_K _ _ _ T); reflexivity).
    destruct (t_np _ _ _ T) as [Np1 Np2].
    constructor; cbn [w_tab w_np w_nt w_pipes w_in w_jobs].
    - rewrite !set_nth_length. apply V.
    - intros j2 q2 g2. rewrite !nth_error_set_nth by assumption. destruct (Nat.eqb_spec j2 j) as [->|Ne].
      + intros E1 E2. injection E1 as <-. injection E2 as <-. constructor; cbn [g_c g_cs g_progs g_s g_s' g_ls g_t grown p_its p_x p_K p_procs p_rd p_ok w_np w_pipes]; unfold ga, gn; cbn [g_s g_cs grown]; try apply T; try reflexivity; auto.
        exact (nsteps_snoc q g _ _ _ _ _ (t_run _ _ _ T) El).
      + intros E1 E2. pose proof (v_tied _ _ V _ _ _ E1 E2) as T2. constructor; cbn [w_np w_pipes]; try apply T2.
        intros i Hi. rewrite (t_pipes _ _ _ T2 i Hi). symmetry. apply Eo. destruct (v_apart _ _ V j2 j g2 g Ne E2 Eg); lia.
    - assert (G : forall i h, nth_error (set_nth gs j (grown g l t')) i = Some h -> exists h', nth_error gs i = Some h' /\ ga h = ga h' /\ gn h = gn h').
      { intros i h. rewrite nth_error_set_nth by assumption. destruct (Nat.eqb_spec i j) as [->|Ne]; [intros E; injection E as <-; exists g; now split|intros E; exists h; now split]. }
      intros j1 j2 g1 g2 Ne E1 E2. destruct (G _ _ E1) as (h1 & F1 & -> & ->). destruct (G _ _ E2) as (h2 & F2 & -> & ->). exact (v_apart _ _ V j1 j2 h1 h2 Ne F1 F2).
    - reflexivity.
    - intros m Hm. rewrite <- (v_std _ _ V m Hm). destruct Et as [[-> _]|(O & _ & ->)]; [reflexivity|]. rewrite tget_tset. destruct (Nat.eqb_spec m (p_x q)) as [->|]; [|reflexivity].
      specialize (Xnew O). unfold refers in Xnew. rewrite (v_std _ _ V _ Hm) in Xnew. fold (refers tab0 (p_x q)) in Xnew. pose proof (Old0 _ _ Xnew Logic.I) as X. cbn in X. lia.
    - intros m k. rewrite Ref. destruct (Nat.eqb m (p_x q) && _); [discriminate|]. apply V.
    - intros m k. rewrite Ref. destruct (Nat.eqb m (p_x q) && _) eqn:B; [discriminate|]. intros E Hk. destruct (v_r _ _ V m k E Hk) as (j2 & q2 & E2 & X1 & X2 & X3).
      exists j2. rewrite nth_error_set_nth by assumption. destruct (Nat.eqb_spec j2 j) as [->|Ne].
      + rewrite Eq in E2. injection E2 as <-. eexists. split; [reflexivity|]. cbn. split; [exact X1|]. split; [exact X2|]. subst m. rewrite Nat.eqb_refl, X3 in B. cbn in B. now apply negb_false_iff in B.
      + exists q2. repeat split; auto.
    - intros j2 q2. rewrite nth_error_set_nth by assumption. destruct (Nat.eqb_spec j2 j) as [->|Ne].
      + intros E O. injection E as <-. cbn in O |- *. rewrite Ref, O. cbn. rewrite !andb_false_r. destruct Et as [[_ Et]|(_ & Et & _)]; [|congruence]. rewrite Et in O. exact (v_x _ _ V _ _ Eq O).
      + intros E O. rewrite Ref. destruct (Nat.eqb (p_x q2) (p_x q) && _) eqn:B; [|exact (v_x _ _ V _ _ E O)]. exfalso.
        apply andb_prop in B as [B1 B2]. apply andb_prop in B2 as [B2 _]. apply Nat.eqb_eq in B1. specialize (Xnew B2). rewrite <- B1, (v_x _ _ V _ _ E O) in Xnew. injection Xnew as Xnew.
        destruct (ghost_of _ _ _ _ V E) as [g2 Eg2]. rewrite (t_K _ _ _ (v_tied _ _ V _ _ _ E Eg2)) in Xnew.
        destruct (same_job _ _ _ _ _ _ _ _ _ _ V E Eg2 Eq Eg (le_n _) (le_n _) Xnew) as (J & _). contradiction.
    - apply V.
    - intros k Hk. rewrite Eo by lia. now apply V.
  Qed.

  (** The pipes of pipeline j. *)
  Section Job.
    Variable w : world H.
    Variable gs : list ghost.
    Variable j : nat.
    Variable q : pjob H.
    Variable g : ghost.
    Hypothesis V : winv w gs.
    Hypothesis Eq : nth_error (w_jobs w) j = Some q.
    Hypothesis Eg : nth_error gs j = Some g.
    Notation K := (ga g + gn g).
    Lemma iterates_only i j2 q2 : i <= gn g -> nth_error (w_jobs w) j2 = Some q2 -> iterates H (ga g + i) q2 = true -> i = gn g /\ j2 = j /\ q2 = q.
    Proof.
      intros Hi E It. apply Nat.eqb_eq in It. destruct (ghost_of _ _ _ _ V E) as [g2 Eg2]. rewrite (t_K _ _ _ (v_tied _ _ V _ _ _ E Eg2)) in It.
      destruct (same_job _ _ _ _ _ _ _ _ _ _ V E Eg2 Eq Eg (le_n _) Hi It) as (-> & -> & -> & <-). auto.
    Qed.
    Lemma iterates_K : iterates H K q = true.
    Proof. unfold iterates. rewrite (t_K _ _ _ (v_tied _ _ V _ _ _ Eq Eg)). apply Nat.eqb_refl. Qed.
    Lemma iterated_K : existsb (iterates H K) (w_jobs w) = true.
    Proof. apply existsb_nth. exists j, q. split; [exact Eq|apply iterates_K]. Qed.
    Lemma not_iterated i : i < gn g -> existsb (iterates H (ga g + i)) (w_jobs w) = false.
    Proof. intros Hi. apply not_true_is_false. rewrite existsb_nth. intros (j2 & q2 & E & It). destruct (iterates_only i j2 q2 ltac:(lia) E It). lia. Qed.
    Lemma content_same i : i <= gn g -> w_content H w (ga g + i) = content H K (g_t g) (ga g + i).
    Proof.
      intros Hi. pose proof (v_tied _ _ V _ _ _ Eq Eg) as T. unfold w_content, content. destruct (Nat.eqb_spec (ga g + i) K) as [E|Ne].
      - rewrite E. rewrite (find_unique _ _ j q Eq iterates_K); [now rewrite (t_rd _ _ _ T)|]. intros j2 q2 E2 It. now destruct (iterates_only (gn g) j2 q2 (le_n _) E2 It) as (_ & -> & _).
      - destruct (find _ _) as [q2|] eqn:F.
        + apply find_some in F as [F1 F2]. apply In_nth_error in F1 as [j2 F1]. destruct (iterates_only i j2 q2 Hi F1 F2). lia.
        + symmetry. apply (t_pipes _ _ _ T). lia.
    Qed.
    Lemma map_K (F : pjob H -> pjob H) : map (fun q2 => if iterates H K q2 then F q2 else q2) (w_jobs w) = set_nth (w_jobs w) j (F q).
    Proof.
      assert (Hj : j < List.length (w_jobs w)) by (apply nth_error_Some; congruence).
      apply nth_error_ext. intros i. rewrite nth_error_map, nth_error_set_nth by exact Hj. destruct (Nat.eqb_spec i j) as [->|Ne].
      - rewrite Eq. cbn. now rewrite iterates_K.
      - destruct (nth_error (w_jobs w) i) as [q2|] eqn:E; [|reflexivity]. cbn. destruct (iterates H K q2) eqn:It; [|reflexivity].
        destruct (iterates_only (gn g) i q2 (le_n _) E It) as (_ & X & _). contradiction.
    Qed.

    Notation T := (v_tied _ _ V _ _ _ Eq Eg).
    Lemma jlt : j < List.length (w_jobs w).
    Proof. apply nth_error_Some. congruence. Qed.
    (** The world after a step of a process, in the form of [winv_upd]. *)
    Lemma fit l t' w' pipes' : alone q g (g_t g) l = Some t' ->
      w' = mkW (w_tab w) (w_np w) (w_nt w) pipes' [] (set_nth (w_jobs w) j (mkP (p_its q) (p_x q) (p_K q) (n_procs t') (n_rd t') (n_ok t'))) ->
      n_in t' = [] -> (forall i, i < gn g -> n_pipes t' (ga g + i) = pipes' (ga g + i)) -> (forall k, k < ga g \/ ga g + gn g <= k -> pipes' k = w_pipes w k) ->
      r_wopen (n_rd t') = live (n_procs t') (gn g) -> List.length (n_procs t') = S (gn g) -> r_h (n_rd t') = r_h (p_rd q) ->
      winv w' (set_nth gs j (grown g l t')).
    Proof.
      intros El -> E1 E2 E3 E4 E5 E6. apply (winv_upd w gs j q g l t'); auto. left. now rewrite E6.
    Qed.
    Lemma live_set ps i p : live ps i = true -> forall k, live (set_nth ps i (Some p)) k = live ps k.
    Proof.
      intros A k. unfold live in *. destruct (nth i ps None) eqn:E; [|discriminate]. pose proof (nth_some_lt _ _ _ E) as Hi. rewrite nth_set_nth by exact Hi.
      destruct (Nat.eqb_spec k i) as [->|]; [now rewrite E|reflexivity].
    Qed.
    Lemma becomes_sim l i p : live (p_procs q) i = true -> alone q g (g_t g) l = Some (becomes H (g_t g) i p) ->
      winv (w_becomes H w j i p) (set_nth gs j (grown g l (becomes H (g_t g) i p))).
    Proof.
      intros A El. eapply (fit _ _ _ (w_pipes w)); [exact El| | | | | | |]; cbn [becomes n_procs n_pipes n_in n_rd n_ok].
      - unfold w_becomes, with_jobs. rewrite Eq, (v_in _ _ V), (t_procs _ _ _ T), (t_rd _ _ _ T), (t_ok _ _ _ T). reflexivity.
      - apply T.
      - apply T.
      - reflexivity.
      - rewrite (t_rd _ _ _ T), (t_procs _ _ _ T), live_set by exact A. apply T.
      - rewrite set_nth_length, (t_procs _ _ _ T). apply T.
      - now rewrite (t_rd _ _ _ T).
    Qed.
    Lemma drop_in_nil : w_drop_in H w = w.
    Proof. unfold w_drop_in. pose proof (v_in _ _ V) as E. destruct w. cbn in *. now rewrite E. Qed.
    Lemma push_sim l k i p b : k <= gn g -> live (p_procs q) i = true -> alone q g (g_t g) l = Some (becomes H (push H K (g_t g) (ga g + k) b) i p) ->
      winv (w_becomes H (w_push H w (ga g + k) b) j i p) (set_nth gs j (grown g l (becomes H (push H K (g_t g) (ga g + k) b) i p))).
    Proof.
      intros Hk A El. pose proof jlt as Hj. destruct (Nat.eq_dec k (gn g)) as [->|Ne].
      - assert (X : push H K (g_t g) K b = mkN (n_procs (g_t g)) (n_pipes (g_t g)) (n_in (g_t g)) (with_pend H (n_rd (g_t g)) (r_pend (n_rd (g_t g)) ++ [b]) (r_sent (n_rd (g_t g)) ++ [b])) (n_ok (g_t g))) by (unfold push; now rewrite Nat.eqb_refl).
        rewrite X in *. eapply (fit _ _ _ (w_pipes w)); [exact El| | | | | | |]; cbn [becomes n_procs n_pipes n_in n_rd n_ok with_pend r_h r_wopen].
        + unfold w_push. rewrite iterated_K, (map_K (fun q2 => with_rd H q2 _)). unfold w_becomes, with_jobs. cbn [w_jobs w_tab w_np w_nt w_pipes w_in]. rewrite nth_error_set_nth by exact Hj. rewrite Nat.eqb_refl, set_nth_twice.
          rewrite (v_in _ _ V), (t_procs _ _ _ T), (t_rd _ _ _ T), (t_ok _ _ _ T). reflexivity.
        + apply T.
        + apply T.
        + reflexivity.
        + rewrite (t_rd _ _ _ T), (t_procs _ _ _ T), live_set by exact A. apply T.
        + rewrite set_nth_length, (t_procs _ _ _ T). apply T.
        + now rewrite (t_rd _ _ _ T).
      - assert (NK : (ga g + k =? K) = false) by (apply Nat.eqb_neq; lia).
        assert (X : push H K (g_t g) (ga g + k) b = mkN (n_procs (g_t g)) (fun i => if Nat.eqb i (ga g + k) then n_pipes (g_t g) (ga g + k) ++ [b] else n_pipes (g_t g) i) (n_in (g_t g)) (n_rd (g_t g)) (n_ok (g_t g))) by (unfold push; now rewrite NK).
        rewrite X in *. eapply (fit _ _ _ (fun i => if Nat.eqb i (ga g + k) then w_pipes w (ga g + k) ++ [b] else w_pipes w i)); [exact El| | | | | | |]; cbn [becomes n_procs n_pipes n_in n_rd n_ok with_pend r_h r_wopen].
        + unfold w_push. rewrite not_iterated by lia. unfold w_becomes, with_jobs, with_pipe. cbn [w_jobs w_tab w_np w_nt w_pipes w_in]. rewrite Eq.
          rewrite (v_in _ _ V), (t_procs _ _ _ T), (t_rd _ _ _ T), (t_ok _ _ _ T). reflexivity.
        + apply T.
        + intros i2 Hi2. now rewrite !(t_pipes _ _ _ T) by lia.
        + intros k2 Hk2. destruct (Nat.eqb_spec k2 (ga g + k)); [lia|reflexivity].
        + rewrite (t_rd _ _ _ T), (t_procs _ _ _ T), live_set by exact A. apply T.
        + rewrite set_nth_length, (t_procs _ _ _ T). apply T.
        + now rewrite (t_rd _ _ _ T).
    Qed.
    Lemma pop_sim l k i p : k <= gn g -> live (p_procs q) i = true -> alone q g (g_t g) l = Some (becomes H (pop H K (g_t g) (ga g + k)) i p) ->
      winv (w_becomes H (w_pop H w (ga g + k)) j i p) (set_nth gs j (grown g l (becomes H (pop H K (g_t g) (ga g + k)) i p))).
    Proof.
      intros Hk A El. pose proof jlt as Hj. destruct (Nat.eq_dec k (gn g)) as [->|Ne].
      - assert (X : pop H K (g_t g) K = mkN (n_procs (g_t g)) (n_pipes (g_t g)) (n_in (g_t g)) (with_pend H (n_rd (g_t g)) (tl (r_pend (n_rd (g_t g)))) (r_sent (n_rd (g_t g)))) (n_ok (g_t g))) by (unfold pop; now rewrite Nat.eqb_refl).
        rewrite X in *. eapply (fit _ _ _ (w_pipes w)); [exact El| | | | | | |]; cbn [becomes n_procs n_pipes n_in n_rd n_ok with_pend r_h r_wopen].
        + unfold w_pop. rewrite iterated_K, (map_K (fun q2 => with_rd H q2 _)). unfold w_becomes, with_jobs. cbn [w_jobs w_tab w_np w_nt w_pipes w_in]. rewrite nth_error_set_nth by exact Hj. rewrite Nat.eqb_refl, set_nth_twice.
          rewrite (v_in _ _ V), (t_procs _ _ _ T), (t_rd _ _ _ T), (t_ok _ _ _ T). reflexivity.
        + apply T.
        + apply T.
        + reflexivity.
        + rewrite (t_rd _ _ _ T), (t_procs _ _ _ T), live_set by exact A. apply T.
        + rewrite set_nth_length, (t_procs _ _ _ T). apply T.
        + now rewrite (t_rd _ _ _ T).
      - assert (NK : (ga g + k =? K) = false) by (apply Nat.eqb_neq; lia).
        assert (X : pop H K (g_t g) (ga g + k) = mkN (n_procs (g_t g)) (fun i => if Nat.eqb i (ga g + k) then tl (n_pipes (g_t g) (ga g + k)) else n_pipes (g_t g) i) (n_in (g_t g)) (n_rd (g_t g)) (n_ok (g_t g))) by (unfold pop; now rewrite NK).
        rewrite X in *. eapply (fit _ _ _ (fun i => if Nat.eqb i (ga g + k) then tl (w_pipes w (ga g + k)) else w_pipes w i)); [exact El| | | | | | |]; cbn [becomes n_procs n_pipes n_in n_rd n_ok with_pend r_h r_wopen].
        + unfold w_pop. rewrite not_iterated by lia. unfold w_becomes, with_jobs, with_pipe. cbn [w_jobs w_tab w_np w_nt w_pipes w_in]. rewrite Eq.
          rewrite (v_in _ _ V), (t_procs _ _ _ T), (t_rd _ _ _ T), (t_ok _ _ _ T). reflexivity.
        + apply T.
        + intros i2 Hi2. now rewrite !(t_pipes _ _ _ T) by lia.
        + intros k2 Hk2. destruct (Nat.eqb_spec k2 (ga g + k)); [lia|reflexivity].
        + rewrite (t_rd _ _ _ T), (t_procs _ _ _ T), live_set by exact A. apply T.
        + rewrite set_nth_length, (t_procs _ _ _ T). apply T.
        + now rewrite (t_rd _ _ _ T).
    Qed.
    Lemma live_unset ps i : live ps i = true -> forall k, live (set_nth ps i None) k = live ps k && negb (Nat.eqb k i).
    Proof.
      intros A k. unfold live in *. destruct (nth i ps None) eqn:E; [|discriminate]. pose proof (nth_some_lt _ _ _ E) as Hi. rewrite nth_set_nth by exact Hi.
      destruct (Nat.eqb_spec k i) as [->|]; cbn; [now rewrite andb_false_r|now rewrite andb_true_r].
    Qed.
    Notation gone1 := (gone H h_open fds (sees q) (s_tab (g_s' g)) (p_x q) K (g_t g)).
    Lemma gone_sim l i ok : live (p_procs q) i = true -> alone q g (g_t g) l = Some (gone1 i ok) ->
      winv (w_gone H L logfd maxfd w j i ok) (set_nth gs j (grown g l (gone1 i ok))).
    Proof.
      intros A El. pose proof jlt as Hj. pose proof (tied_parts _ _ _ T) as P. destruct (t_np _ _ _ T) as [Np _].
      assert (Wl : forall ps, writer_left H h_open fds (sees q) (s_tab (g_s' g)) (p_x q) (g_t g) ps K = live ps (gn g)) by (intros ps; now apply alone_w).
      eapply (fit _ _ _ (w_pipes w)); [exact El| | | | | | |]; cbn [gone n_procs n_pipes n_in n_rd n_ok r_h r_wopen]; rewrite ?Wl.
      - unfold w_gone, with_jobs. rewrite Eq, (v_in _ _ V). f_equal.
        set (q1 := mkP (p_its q) (p_x q) (p_K q) (set_nth (p_procs q) i None) (p_rd q) (p_ok q && ok)).
        assert (Al : alike (w_jobs w) (set_nth (w_jobs w) j q1)).
        { split; [apply set_nth_length|]. intros j2 q2 q2' E2. rewrite nth_error_set_nth by exact Hj. destruct (Nat.eqb_spec j2 j) as [->|]; intros E; [injection E as <-; rewrite Eq in E2; now injection E2 as <-|congruence]. }
        apply nth_error_ext. intros j2. rewrite nth_error_map, !nth_error_set_nth by exact Hj. destruct (Nat.eqb_spec j2 j) as [->|Ne].
        + cbn [option_map]. f_equal. rewrite (t_K _ _ _ T : p_K q1 = K). rewrite (has_w w gs _ j q g q1 (gn g) V Al Eq Eg) by (try lia; rewrite nth_error_set_nth, Nat.eqb_refl by exact Hj; reflexivity).
          rewrite (t_procs _ _ _ T), (t_rd _ _ _ T), (t_ok _ _ _ T). reflexivity.
        + destruct (nth_error (w_jobs w) j2) as [q2|] eqn:E2; [|reflexivity]. cbn [option_map]. f_equal. destruct (ghost_of _ _ _ _ V E2) as [g2 Eg2].
          pose proof (v_tied _ _ V _ _ _ E2 Eg2) as T2. rewrite (t_K _ _ _ T2).
          rewrite (has_w w gs _ j2 q2 g2 q2 (gn g2) V Al E2 Eg2) by first [lia | rewrite nth_error_set_nth by exact Hj; destruct (Nat.eqb_spec j2 j); [contradiction|exact E2]].
          rewrite <- (t_wopen _ _ _ T2), andb_diag. destruct q2 as [a1 a2 a3 a4 [b1 b2 b3 b4 b5 b6] a6]. reflexivity.
      - apply T.
      - apply T.
      - reflexivity.
      - rewrite (t_rd _ _ _ T), (t_procs _ _ _ T), (t_wopen _ _ _ T), live_unset by exact A. destruct (live (p_procs q) (gn g)); reflexivity.
      - rewrite set_nth_length, (t_procs _ _ _ T). apply T.
      - now rewrite (t_rd _ _ _ T).
    Qed.

    Lemma rstep_open r l r' : reader_only l -> rstepH r l = Some r' -> h_open (r_h r) = false -> h_open (r_h r') = false.
    Proof.
      intros O. destruct l as [d| |m| | |ok]; cbn in O; try contradiction; unfold rstep.
      - destruct (readable H h_open r); [|discriminate]. destruct (h_wants (r_h r)).
        + destruct (read_ok H r m); [|discriminate]. destruct (h_event _ _) as [h wk] eqn:E. intros X C. injection X as <-. cbn. pose proof (Open_event (r_h r) (firstn m (r_pend r)) C) as Y. now rewrite E in Y.
        + destruct (h_event _ _) as [h wk] eqn:E. intros X C. injection X as <-. cbn. pose proof (Open_event (r_h r) [] C) as Y. now rewrite E in Y.
      - destruct (r_phase r); try discriminate. intros X C. injection X as <-. unfold after. pose proof (Open_next (r_h r) C) as Y. destruct (h_next _) as [h []]; exact Y.
      - destruct (r_phase r); try discriminate. intros X C. injection X as <-. unfold after. pose proof (Open_resume (r_h r) C) as Y. destruct (h_resume _) as [h []]; exact Y.
      - destruct (r_phase r); try discriminate. intros X C. injection X as <-. exact C.
    Qed.
    Lemma live_le i : live (p_procs q) i = true -> i <= gn g.
    Proof.
      unfold live. destruct (nth i (p_procs q) None) eqn:E; [|discriminate]. intros _. pose proof (nth_some_lt _ _ _ E) as X. rewrite (t_len _ _ _ T) in X. lia.
    Qed.
    (** A step of pipeline j among the others is one it could make alone. *)
    Definition like (l : nlabel) (a : option (net H)) (b : option (world H)) : Prop :=
      match a, b with Some t', Some w' => winv w' (set_nth gs j (grown g l t')) | None, None => True | _, _ => False end.
    Lemma like_some l t' w' : alone q g (g_t g) l = Some t' -> (alone q g (g_t g) l = Some t' -> winv w' (set_nth gs j (grown g l t'))) -> like l (alone q g (g_t g) l) (Some w').
    Proof. intros E X. rewrite E. exact (X E). Qed.
    Lemma like_none l : alone q g (g_t g) l = None -> like l (alone q g (g_t g) l) None.
    Proof. intros ->. exact Logic.I. Qed.
    Lemma alone_proc i : alone q g (g_t g) (NProc i) = proc_step H h_open (ga g) cap fds (sees q) (s_tab (g_s' g)) (p_x q) K (g_t g) i.
    Proof. reflexivity. Qed.
    Lemma proc_sim i : like (NProc i) (alone q g (g_t g) (NProc i)) (w_proc H L logfd maxfd cap np0 w j i).
    Proof.
      pose proof (tied_parts _ _ _ T) as P. destruct (t_np _ _ _ T) as [Np _]. pose proof (alone_proc i) as Ea. unfold proc_step in Ea. rewrite (t_procs _ _ _ T) in Ea. unfold w_proc. rewrite Eq.
      destruct (nth i (p_procs q) None) as [p|] eqn:Ep; [|now apply like_none]. assert (A : live (p_procs q) i = true) by (unfold live; now rewrite Ep). pose proof (live_le i A) as Hi.
      assert (O1 : forall k, ours (ga g) (ga g + k) = true) by (intros k; apply Nat.leb_le; lia). assert (O2 : forall k, ours np0 (ga g + k) = true) by (intros k; apply Nat.leb_le; lia).
      destruct p as [f|b f|ok].
      - destruct i as [|i].
        + rewrite (s_in0 _ _ P) in *. rewrite (t_in _ _ _ T), drop_in_nil, (v_in _ _ V) in *. cbn [hd_error]. pose proof old_o0 as Oo.
          assert (G : alone q g (g_t g) (NProc 0) = Some (becomes H (g_t g) 0 (f None))).
          { rewrite Ea. destruct o0 as [k|k|k|k|k]; try reflexivity. now destruct (ours (ga g) k) eqn:Ok; [apply Nat.leb_le in Ok; specialize (Oo Logic.I); cbn in Oo; lia|]. }
          destruct o0 as [k|k|k|k|k]; try (eapply like_some; [exact G|]; intros; now apply becomes_sim).
          destruct (ours np0 k) eqn:Ok; [apply Nat.leb_le in Ok; specialize (Oo Logic.I); cbn in Oo; lia|]. eapply like_some; [exact G|]. intros; now apply becomes_sim.
        + rewrite (s_inS _ _ P) in * by lia. rewrite O1 in Ea. rewrite O2, (content_same i) by lia. destruct (content H K (g_t g) (ga g + i)) as [|b rest].
          * rewrite (alone_w q g i (g_t g) (p_procs q) P Np ltac:(lia)) in Ea. rewrite (has_w w gs (w_jobs w) j q g q i V) by first [exact Eq|exact Eg|lia|split; [reflexivity|intros; congruence]].
            destruct (live (p_procs q) i); [now apply like_none|]. eapply like_some; [exact Ea|]. intros; now apply becomes_sim.
          * eapply like_some; [exact Ea|]. intros; apply pop_sim; auto. lia.
      - rewrite (s_out _ _ P) in * by lia. rewrite O1 in Ea. rewrite O2. rewrite (alone_r q g i (g_t g) P Np Hi), (t_rd _ _ _ T), (t_procs _ _ _ T) in Ea. rewrite (has_r w gs j q g i V Eq Eg Hi), (content_same i Hi).
        destruct (negb _); [eapply like_some; [exact Ea|]; intros; now apply becomes_sim|]. destruct (_ <? cap); [|now apply like_none]. eapply like_some; [exact Ea|]. intros; now apply push_sim.
      - eapply like_some; [exact Ea|]. intros. now apply gone_sim.
    Qed.
    Lemma read_sim l rl : reader_label l = Some rl -> p_may H q l = true -> like l (alone q g (g_t g) l) (wstep w j l).
    Proof.
      intros El M. assert (O : reader_only rl) by (destruct l; cbn in El; try discriminate; injection El as <-; exact Logic.I).
      assert (Ma : may H (g_t g) l = true) by (unfold may, p_may in *; rewrite (t_procs _ _ _ T), (t_ok _ _ _ T); exact M).
      assert (Ea : alone q g (g_t g) l = match rstepH (p_rd q) rl with Some r => Some (mkN (n_procs (g_t g)) (n_pipes (g_t g)) (n_in (g_t g)) r (n_ok (g_t g))) | None => None end).
      { unfold alone, nstep. rewrite Ma. cbn [negb]. rewrite <- (t_rd _ _ _ T). destruct l; cbn [reader_label] in *; try discriminate; injection El as <-; reflexivity. }
      assert (Ew : wstep w j l = match rstepH (p_rd q) rl with Some r =>
          Some (mkW (if h_open (r_h (p_rd q)) && negb (h_open (r_h r)) then tset (w_tab w) (p_x q) None else w_tab w) (w_np w) (w_nt w) (w_pipes w) (w_in w) (set_nth (w_jobs w) j (with_rd H q r))) | None => None end).
      { unfold w_step. rewrite Eq, M. cbn [negb]. destruct l; cbn [reader_label] in *; try discriminate; injection El as <-; reflexivity. }
      rewrite Ew. destruct (rstepH (p_rd q) rl) as [r|] eqn:Er; [|now apply like_none]. eapply like_some; [exact Ea|]. intros Ea'.
      destruct (rstep_keeps H h_wants h_event h_next h_resume h_open _ _ _ O Er) as [_ Kw]. rewrite (v_in _ _ V).
      unfold with_rd. rewrite <- (t_procs _ _ _ T), <- (t_ok _ _ _ T).
      apply (winv_upd w gs j q g l (mkN (n_procs (g_t g)) (n_pipes (g_t g)) (n_in (g_t g)) r (n_ok (g_t g))) _ (w_pipes w) (w_nt w) V Eq Eg Ea'); cbn [n_procs n_pipes n_in n_rd n_ok]; try apply T; auto.
      - rewrite Kw, (t_procs _ _ _ T). apply T.
      - rewrite (t_procs _ _ _ T). apply T.
      - destruct (h_open (r_h (p_rd q))) eqn:Ho.
        + destruct (h_open (r_h r)) eqn:Hr; cbn; [left; auto|right; auto].
        + left. cbn. split; [reflexivity|]. exact (rstep_open _ _ _ O Er Ho).
    Qed.
    Lemma step_sim l : like l (alone q g (g_t g) l) (wstep w j l).
    Proof.
      destruct (p_may H q l) eqn:M.
      - destruct l as [i|m| | |ok]; try (eapply read_sim; [reflexivity|exact M]). replace (wstep w j (NProc i)) with (w_proc H L logfd maxfd cap np0 w j i); [apply proc_sim|].
        unfold w_step. now rewrite Eq.
      - assert (Ea : alone q g (g_t g) l = None) by (unfold alone, nstep; assert (X : may H (g_t g) l = false) by (unfold may, p_may in *; rewrite (t_procs _ _ _ T), (t_ok _ _ _ T); exact M); now rewrite X).
        assert (Ew : wstep w j l = None) by (unfold w_step; now rewrite Eq, M). rewrite Ew. now apply like_none.
    Qed.
  End Job.

  Notation mstepH := (mstep H h_wants h_event h_next h_resume h_open h0 L pf logfd maxfd cap np0).
  Notation mstepsH := (msteps H h_wants h_event h_next h_resume h_open h0 L pf logfd maxfd cap np0).
  Lemma start_sim w gs c cs progs w' : winv w gs -> mstepH w (MStart c cs progs) w' ->
    exists s', winv w' (gs ++ [mkG c cs progs (mkSt (w_tab w) (w_np w) (w_nt w)) s' [] (net_start H h0 progs [])]).
  Proof.
    intros V E. inversion E as [c0 cs0 progs0 s' ret its x Es Ec Hp Room|]; subst. exists s'.
    assert (A0 : refers (w_tab w) 0 = Some o0) by (unfold refers; rewrite (v_std _ _ V 0) by lia; exact R0).
    assert (A1 : refers (w_tab w) 1 <> None) by (unfold refers; rewrite (v_std _ _ V 1) by lia; exact R1).
    assert (A2 : tget (w_tab w) 2 <> None) by (rewrite (v_std _ _ V 2) by lia; exact R2).
    set (s0 := mkSt (w_tab w) (w_np w) (w_nt w)) in *.
    assert (HL : launched L pf logfd maxfd c cs s0 s' its x).
    { unfold launched. cbn [s_tab s_np s0]. rewrite A0. split; [discriminate|]. split; [exact A1|]. split; [exact A2|]. split; [|split; [exists ret; split; [exact Es|exact Ec]|split; [exact Hlog|split; [exact Hmax|exact Room]]]].
      intros m o Er He. destruct o; cbn in He; try contradiction; cbn.
      - destruct (Nat.lt_ge_cases k np0) as [X|X]; [pose proof (v_np _ _ V); lia|]. destruct (v_r _ _ V m k Er X) as (j & q & Eq & _ & -> & _). destruct (ghost_of _ _ _ _ V Eq) as [g Eg].
        pose proof (v_tied _ _ V _ _ _ Eq Eg) as T. rewrite (t_K _ _ _ T). apply T.
      - pose proof (v_w _ _ V m k Er). pose proof (v_np _ _ V). lia. }
    destruct (launched_facts L pf logfd maxfd c cs s0 s' its x HL) as (o & _ & Li & _ & Rx & Same).
    destruct (refers (w_tab w) 1) as [o1|] eqn:E1; [|congruence].
    destruct (start_np L pf true c cs s0 s' ret its o0 o1 logfd maxfd A0 E1 A2 Es) as [Np _].
    assert (Fresh : tget (w_tab w) x = None).
    { pose proof (start_correct L pf true (chain c cs) s0 o0 o1 logfd maxfd A0 E1 A2 (clean_chain _ _ _ _)) as S2. rewrite Es in S2. cbn zeta in S2. destruct S2 as (_ & _ & _ & F & _). apply F. rewrite Ec. now left. }
    assert (CK : caller_pipe (s_tab s') x = w_np w + List.length cs) by (unfold caller_pipe; now rewrite Rx).
    assert (Ref : forall m, m <> x -> refers (s_tab s') m = refers (w_tab w) m) by (intros m Hm; unfold refers; now rewrite Same).
    pose proof (v_np _ _ V) as Vn.
    assert (New : forall {A} (l : list A) v j u, nth_error (l ++ [v]) j = Some u -> nth_error l j = Some u \/ j = List.length l /\ u = v).
    { intros A l v j u X. destruct (Nat.lt_ge_cases j (List.length l)) as [Y|Y]; [rewrite nth_error_app1 in X by exact Y; now left|]. rewrite nth_error_app2 in X by exact Y.
      destruct (j - List.length l) as [|d] eqn:Ed; [injection X as <-; right; split; [lia|reflexivity]|]. cbn in X. now destruct d. }
    assert (Old : forall {A} (l : list A) v j u, nth_error l j = Some u -> nth_error (l ++ [v]) j = Some u) by (intros A l v j u X; rewrite nth_error_app1; [exact X|apply nth_error_Some; congruence]).
    constructor; cbn [w_tab w_np w_nt w_pipes w_in w_jobs].
    - rewrite !app_length. cbn. now rewrite (v_len _ _ V).
    - intros j q g Eq Eg. apply New in Eq. apply New in Eg. destruct Eq as [Eq|[-> ->]].
      + destruct Eg as [Eg|[-> _]]; [|rewrite (v_len _ _ V) in Eq].
        * pose proof (v_tied _ _ V _ _ _ Eq Eg) as T. constructor; cbn [w_np w_pipes]; try apply T. destruct (t_np _ _ _ T). cbn in Np. lia.
        * assert (List.length (w_jobs w) < List.length (w_jobs w)) by (apply nth_error_Some; congruence). lia.
      + destruct Eg as [Eg|[_ ->]]; [assert (List.length (w_jobs w) < List.length gs) by (apply nth_error_Some; congruence); rewrite (v_len _ _ V) in *; lia|].
        constructor; unfold new_job, ga, gn; cbn [g_c g_cs g_progs g_s g_s' g_ls g_t p_its p_x p_K p_procs p_rd p_ok w_np w_pipes s_np s_tab s0]; auto.
        * intros i Hi. cbn. symmetry. apply V. lia.
        * now rewrite map_length.
        * unfold live. rewrite (nth_indep _ _ (Some (Exits true))) by (rewrite map_length, Hp; lia). now rewrite map_nth.
        * cbn in Np. lia.
    - intros j1 j2 g1 g2 Ne E2 E3.
      assert (Low : forall j g, nth_error gs j = Some g -> ga g + gn g < w_np w) by (intros j g Eg; destruct (job_of _ _ _ _ V Eg) as [q Eq]; apply (v_tied _ _ V _ _ _ Eq Eg)).
      apply New in E2. apply New in E3. destruct E2 as [E2|[-> ->]], E3 as [E3|[-> ->]]; unfold ga, gn in *; cbn [g_s g_cs s_np s0].
      + exact (v_apart _ _ V j1 j2 g1 g2 Ne E2 E3).
      + left. exact (Low _ _ E2).
      + right. exact (Low _ _ E3).
      + contradiction.
    - apply V.
    - intros m Hm. rewrite <- (v_std _ _ V m Hm). apply Same. intros ->. destruct x as [|[|[|x]]]; [unfold refers in A0; now rewrite Fresh in A0|unfold refers in E1; now rewrite Fresh in E1|contradiction|lia].
    - intros m k Er. destruct (Nat.eq_dec m x) as [->|Ne]; [congruence|]. rewrite Ref in Er by exact Ne. exact (v_w _ _ V m k Er).
    - intros m k Er Hk. destruct (Nat.eq_dec m x) as [->|Ne].
      + exists (List.length (w_jobs w)). eexists. split; [rewrite nth_error_app2, Nat.sub_diag by lia; reflexivity|]. unfold new_job. cbn [p_x p_K p_rd]. split; [reflexivity|]. split; [rewrite CK; rewrite Rx in Er; injection Er as <-; reflexivity|exact Open0].
      + rewrite Ref in Er by exact Ne. destruct (v_r _ _ V m k Er Hk) as (j & q & Eq & X). exists j, q. split; [now apply Old|exact X].
    - intros j q Eq O. apply New in Eq. destruct Eq as [Eq|[-> ->]].
      + pose proof (v_x _ _ V _ _ Eq O) as X. rewrite Ref; [exact X|]. intros Y. unfold refers in X. now rewrite Y, Fresh in X.
      + unfold new_job. cbn [p_x p_K]. rewrite CK. exact Rx.
    - cbn in Np. lia.
    - intros k Hk. apply V. cbn in Np. lia.
  Qed.

  Lemma starts_app a b : starts (a ++ b) = starts a ++ starts b.
  Proof. induction a as [|[c cs progs|j l] a IH]; cbn; rewrite ?IH; reflexivity. Qed.
  Lemma steps_of_app j a b : steps_of j (a ++ b) = steps_of j a ++ steps_of j b.
  Proof. induction a as [|[c cs progs|i l] a IH]; cbn; rewrite ?IH; auto. now destruct (Nat.eqb i j). Qed.
  Definition told (ls : list mlabel) (gs : list ghost) : Prop :=
    map (fun g => (g_c g, g_cs g, g_progs g)) gs = starts ls /\ forall j g, nth_error gs j = Some g -> g_ls g = steps_of j ls.
  Lemma no_steps j ls gs : told ls gs -> forall w, winv w gs -> forall l, wstep w j l <> None -> j < List.length gs.
  Proof. intros _ w V l E. rewrite (v_len _ _ V). apply nth_error_Some. intros X. apply E. unfold w_step. now rewrite X. Qed.
  Lemma msteps_sim w0 ls w : winv w0 [] -> mstepsH w0 ls w -> exists gs, winv w gs /\ told ls gs /\ forall j, List.length gs <= j -> steps_of j ls = [].
  Proof.
    intros V0. induction 1 as [|ls w1 l w2 _ (gs & V & [Tl1 Tl2] & Tl3) E].
    - exists []. split; [exact V0|]. split; [split; [reflexivity|intros [|j] g; discriminate]|reflexivity].
    - destruct l as [c cs progs|j l].
      + destruct (start_sim _ _ _ _ _ _ V E) as [s' V']. eexists. split; [exact V'|]. split; [split|].
        * rewrite map_app, starts_app, Tl1. reflexivity.
        * intros j g Eg. rewrite steps_of_app. cbn. rewrite app_nil_r. destruct (Nat.lt_ge_cases j (List.length gs)) as [X|X].
          -- rewrite nth_error_app1 in Eg by exact X. now apply Tl2.
          -- rewrite (Tl3 j X). rewrite nth_error_app2 in Eg by exact X. destruct (j - List.length gs) as [|d]; [now injection Eg as <-|destruct d; discriminate Eg].
        * intros j Hj. rewrite app_length in Hj. cbn in Hj. rewrite steps_of_app. cbn. rewrite app_nil_r. apply Tl3. lia.
      + inversion E as [|j' l' w' Ew]; subst. assert (Hj : j < List.length gs) by (eapply no_steps; [split; [exact Tl1|exact Tl2]|exact V|rewrite Ew; discriminate]).
        destruct (nth_error gs j) as [g|] eqn:Eg; [|apply nth_error_None in Eg; lia]. destruct (job_of _ _ _ _ V Eg) as [q Eq].
        pose proof (step_sim w1 gs j q g V Eq Eg l) as X. rewrite Ew in X. unfold like in X. destruct (alone q g (g_t g) l) as [t'|] eqn:Ea; [|contradiction].
        exists (set_nth gs j (grown g l t')). split; [exact X|]. split; [split|].
        * rewrite starts_app. cbn. rewrite app_nil_r, <- Tl1. apply nth_error_ext. intros i. rewrite !nth_error_map, nth_error_set_nth by exact Hj. destruct (Nat.eqb_spec i j) as [->|]; [rewrite Eg|]; reflexivity.
        * intros i g2. rewrite nth_error_set_nth by exact Hj. rewrite steps_of_app. cbn. destruct (Nat.eqb_spec i j) as [->|Ne].
          -- intros X2. injection X2 as <-. rewrite Nat.eqb_refl. cbn. now rewrite (Tl2 _ _ Eg).
          -- intros X2. destruct (Nat.eqb_spec j i); [congruence|]. rewrite app_nil_r. now apply Tl2.
        * intros i Hi. rewrite set_nth_length in Hi. rewrite steps_of_app. cbn. destruct (Nat.eqb_spec j i); [lia|]. rewrite app_nil_r. now apply Tl3.
  Qed.
  Lemma winv_start nt : winv (m_world H np0 tab0 nt []) [].
  Proof.
    constructor; cbn; auto.
    - intros [|j] q g; discriminate.
    - intros [|j] j2 g1 g2 _; discriminate.
    - intros m k E. exact (Old0 _ _ E Logic.I).
    - intros m k E Hk. pose proof (Old0 _ _ E Logic.I) as X. cbn in X. lia.
    - intros [|j] q; discriminate.
  Qed.

  Lemma msteps_app w a w1 b w2 : mstepsH w a w1 -> mstepsH w1 b w2 -> mstepsH w (a ++ b) w2.
  Proof. intros A. induction 1 as [|b w2 l w3 _ IH E]; [now rewrite app_nil_r|]. rewrite app_assoc. econstructor; [exact IH|exact E]. Qed.
  (** What a pipeline can do alone, it can do among the others. *)
  Lemma lift ls : forall w gs j q g t', winv w gs -> nth_error (w_jobs w) j = Some q -> nth_error gs j = Some g -> alones q g (g_t g) ls = Some t' ->
    exists w' gs' q', mstepsH w (map (MStep j) ls) w' /\ winv w' gs' /\ nth_error (w_jobs w') j = Some q' /\ p_rd q' = n_rd t' /\ p_procs q' = n_procs t' /\
      List.length gs' = List.length gs /\ forall i, i <> j -> nth_error gs' i = nth_error gs i.
  Proof.
    induction ls as [|l ls IH]; intros w gs j q g t' V Eq Eg E; cbn in E.
    - injection E as <-. pose proof (v_tied _ _ V _ _ _ Eq Eg) as T. exists w, gs, q. split; [constructor|]. split; [exact V|]. split; [exact Eq|]. split; [symmetry; apply T|]. split; [symmetry; apply T|]. auto.
    - change (match alone q g (g_t g) l with Some s' => alones q g s' ls | None => None end = Some t') in E. destruct (alone q g (g_t g) l) as [t1|] eqn:E1; [|discriminate].
      pose proof (step_sim w gs j q g V Eq Eg l) as X. rewrite E1 in X. unfold like in X. destruct (wstep w j l) as [w1|] eqn:Ew; [|contradiction].
      assert (Hg : j < List.length gs) by (apply nth_error_Some; congruence).
      assert (Eg1 : nth_error (set_nth gs j (grown g l t1)) j = Some (grown g l t1)) by (now rewrite nth_error_set_nth, Nat.eqb_refl by exact Hg).
      destruct (job_of _ _ _ _ X Eg1) as [q1 Eq1].
      assert (Same : p_its q1 = p_its q /\ p_x q1 = p_x q).
      { assert (Hj : j < List.length (w_jobs w)) by (apply nth_error_Some; congruence). clear -Ew Eq Eq1 Hj. unfold w_step in Ew. rewrite Eq in Ew. destruct (negb _); [discriminate|].
        assert (R : forall rl, match rstepH (p_rd q) rl with Some r => Some (mkW (if h_open (r_h (p_rd q)) && negb (h_open (r_h r)) then tset (w_tab w) (p_x q) None else w_tab w) (w_np w) (w_nt w) (w_pipes w) (w_in w) (set_nth (w_jobs w) j (with_rd H q r))) | None => None end = Some w1 -> p_its q1 = p_its q /\ p_x q1 = p_x q).
        { intros rl Y. destruct (rstepH (p_rd q) rl); [|discriminate]. injection Y as <-. cbn in Eq1. rewrite nth_error_set_nth, Nat.eqb_refl in Eq1 by exact Hj. injection Eq1 as <-. now split. }
        destruct l as [i|m| | |ok]; cbn [reader_label] in Ew; try (eapply R; exact Ew). clear R.
        (* a process: neither of the two is ever changed *)
        assert (Keep : forall w0 q0 p, nth_error (w_jobs w0) j = Some q0 -> nth_error (w_jobs (w_becomes H w0 j i p)) j = Some q1 -> p_its q1 = p_its q0 /\ p_x q1 = p_x q0).
        { intros w0 q0 p F F1. unfold w_becomes in F1. rewrite F in F1. cbn in F1. rewrite nth_error_set_nth, Nat.eqb_refl in F1 by (apply nth_error_Some; congruence). injection F1 as <-. now split. }
        assert (Put : forall k b, exists q0, nth_error (w_jobs (w_push H w k b)) j = Some q0 /\ p_its q0 = p_its q /\ p_x q0 = p_x q).
        { intros k b. unfold w_push. destruct (existsb _ _); cbn; [|eauto]. rewrite nth_error_map, Eq. cbn. eexists. split; [reflexivity|]. destruct (iterates H k q); now split. }
        assert (Take : forall k, exists q0, nth_error (w_jobs (w_pop H w k)) j = Some q0 /\ p_its q0 = p_its q /\ p_x q0 = p_x q).
        { intros k. unfold w_pop. destruct (existsb _ _); cbn; [|eauto]. rewrite nth_error_map, Eq. cbn. eexists. split; [reflexivity|]. destruct (iterates H k q); now split. }
        unfold w_proc in Ew. rewrite Eq in Ew.
        repeat match type of Ew with context [match ?e with _ => _ end] => destruct e end; try discriminate; injection Ew as <-;
          try (eapply Keep; [exact Eq|exact Eq1]);
          try (eapply (Keep (w_drop_in H w)); [exact Eq|exact Eq1]);
          try (match type of Eq1 with context [w_push _ _ ?k ?b] => destruct (Put k b) as (q0 & F & <- & <-); eapply Keep; [exact F|exact Eq1] end);
          try (match type of Eq1 with context [w_pop _ _ ?k] => destruct (Take k) as (q0 & F & <- & <-); eapply Keep; [exact F|exact Eq1] end).
        unfold w_gone in Eq1. rewrite Eq in Eq1. cbn in Eq1. rewrite nth_error_map, nth_error_set_nth, Nat.eqb_refl in Eq1 by exact Hj. cbn in Eq1. injection Eq1 as <-. now split. }
      destruct Same as [S1 S2].
      assert (E' : alones q1 (grown g l t1) (g_t (grown g l t1)) ls = Some t').
      { unfold alones, p_sees, ga, gn in *. cbn [grown g_s g_s' g_cs g_t]. rewrite S1, S2. exact E. }
      destruct (IH _ _ _ _ _ _ X Eq1 Eg1 E') as (w' & gs' & q' & M & V' & Q1 & Q2 & Q2' & Q3 & Q4). exists w', gs', q'. split; [|split; [exact V'|split; [exact Q1|split; [exact Q2|split; [exact Q2'|split]]]]].
      + cbn. change (MStep j l :: map (MStep j) ls) with ([MStep j l] ++ map (MStep j) ls). eapply msteps_app; [|exact M]. apply (m_more _ _ _ _ _ _ _ _ _ _ _ _ _ w [] w (MStep j l) w1); [constructor|]. now apply m_step.
      + now rewrite Q3, set_nth_length.
      + intros i Hi. rewrite Q4, nth_error_set_nth by assumption. now destruct (Nat.eqb_spec i j).
  Qed.

  Definition world0 (nt : nat) : world H := m_world H np0 tab0 nt [].
  Lemma many_facts nt ls w j c cs progs : mstepsH (world0 nt) ls w -> nth_error (starts ls) j = Some (c, cs, progs) ->
    exists q s s' t, nth_error (w_jobs w) j = Some q /\ launched L pf logfd maxfd c cs s s' (p_its q) (p_x q) /\ List.length progs = S (List.length cs) /\
      nsteps H h_wants h_event h_next h_resume h_open (s_np s) cap fds (map (item_sees L logfd maxfd) (p_its q)) (s_tab s') (p_x q) (caller_pipe (s_tab s') (p_x q))
        (net_start H h0 progs []) (steps_of j ls) = Some t /\
      n_rd t = p_rd q /\ n_procs t = p_procs q /\
      (forall l, (wstep w j l <> None <-> nstep H h_wants h_event h_next h_resume h_open (s_np s) cap fds (map (item_sees L logfd maxfd) (p_its q)) (s_tab s') (p_x q) (caller_pipe (s_tab s') (p_x q)) t l <> None)) /\
      (forall ls' t', nsteps H h_wants h_event h_next h_resume h_open (s_np s) cap fds (map (item_sees L logfd maxfd) (p_its q)) (s_tab s') (p_x q) (caller_pipe (s_tab s') (p_x q)) t ls' = Some t' ->
        exists w' q', mstepsH (world0 nt) (ls ++ map (MStep j) ls') w' /\ nth_error (w_jobs w') j = Some q' /\ p_rd q' = n_rd t' /\
          forall i, i <> j -> option_map p_rd (nth_error (w_jobs w') i) = option_map p_rd (nth_error (w_jobs w) i)).
  Proof.
    intros M Es. destruct (msteps_sim _ _ _ (winv_start nt) M) as (gs & V & [Tl1 Tl2] & _).
    rewrite <- Tl1, nth_error_map in Es. destruct (nth_error gs j) as [g|] eqn:Eg; [|discriminate]. cbn in Es. injection Es as <- <- <-. destruct (job_of _ _ _ _ V Eg) as [q Eq].
    pose proof (v_tied _ _ V _ _ _ Eq Eg) as T. pose proof (tied_parts _ _ _ T) as P.
    assert (CK : caller_pipe (s_tab (g_s' g)) (p_x q) = ga g + gn g) by (unfold caller_pipe; now rewrite (s_x _ _ P)). rewrite <- (Tl2 _ _ Eg).
    exists q, (g_s g), (g_s' g), (g_t g). rewrite CK. split; [exact Eq|]. split; [apply T|]. split; [apply T|]. split; [apply T|]. split; [apply T|]. split; [apply T|]. split.
    - intros l. pose proof (step_sim w gs j q g V Eq Eg l) as X. unfold like, alone, p_sees, ga in X. fold (gn g). change (s_np (g_s g) + gn g) with (ga g + gn g) in *. unfold ga in *.
      destruct (nstep _ _ _ _ _ _ _ _ _ _ _ _ _ _ _), (wstep w j l); try contradiction; split; congruence.
    - intros ls' t' E. destruct (lift ls' w gs j q g t' V Eq Eg E) as (w' & gs' & q' & M' & V' & Q1 & Q2 & _ & Q3 & Q4). exists w', q'. split; [eapply msteps_app; [exact M|exact M']|]. split; [exact Q1|]. split; [exact Q2|].
      intros i Hi. specialize (Q4 i Hi). destruct (nth_error gs i) as [gi|] eqn:Egi.
      + destruct (job_of _ _ _ _ V Egi) as [qi Eqi]. destruct (job_of _ _ _ _ V' Q4) as [qi' Eqi']. rewrite Eqi, Eqi'. cbn. f_equal. rewrite <- (t_rd _ _ _ (v_tied _ _ V _ _ _ Eqi Egi)). symmetry. exact (t_rd _ _ _ (v_tied _ _ V' _ _ _ Eqi' Q4)).
      + assert (nth_error (w_jobs w) i = None) as -> by (apply nth_error_None; rewrite <- (v_len _ _ V); now apply nth_error_None).
        assert (nth_error (w_jobs w') i = None) as -> by (apply nth_error_None; rewrite <- (v_len _ _ V'); now apply nth_error_None). reflexivity.
  Qed.
  (** If each can be brought to its end, all can. *)
  Lemma all_can_end nt (good : list string * list (list string) * list prog -> Prop) (fin : rstate H -> Prop) :
    (forall ls w j c cs progs, mstepsH (world0 nt) ls w -> nth_error (starts ls) j = Some (c, cs, progs) -> good (c, cs, progs) ->
      exists ls' w' q', mstepsH (world0 nt) (ls ++ map (MStep j) ls') w' /\ nth_error (w_jobs w') j = Some q' /\ fin (p_rd q') /\
        forall i, i <> j -> option_map p_rd (nth_error (w_jobs w') i) = option_map p_rd (nth_error (w_jobs w) i)) ->
    forall ls w, mstepsH (world0 nt) ls w -> Forall good (starts ls) ->
    exists ls' w', mstepsH (world0 nt) (ls ++ ls') w' /\ starts ls' = [] /\ List.length (w_jobs w') = List.length (starts ls) /\ Forall (fun q => fin (p_rd q)) (w_jobs w').
  Proof.
    intros Each ls w M G.
    assert (St : forall j l, starts (map (MStep j) l) = []) by (intros j l; induction l; auto).
    assert (Claim : forall k, k <= List.length (starts ls) -> exists ls' w', mstepsH (world0 nt) (ls ++ ls') w' /\ starts ls' = [] /\ forall i, i < k -> exists q, nth_error (w_jobs w') i = Some q /\ fin (p_rd q)).
    { induction k as [|k IH]; intros Hk; [exists [], w; rewrite app_nil_r; split; [exact M|split; [reflexivity|lia]]|]. destruct (IH ltac:(lia)) as (ls1 & w1 & M1 & S1 & F1).
      assert (S1' : starts (ls ++ ls1) = starts ls) by (now rewrite starts_app, S1, app_nil_r).
      destruct (nth_error (starts ls) k) as [[[c cs] progs]|] eqn:Ek; [|apply nth_error_None in Ek; lia].
      destruct (Each (ls ++ ls1) w1 k c cs progs M1) as (ls2 & w2 & q2 & M2 & E2 & F2 & O2); [now rewrite S1'|rewrite Forall_forall in G; apply G; eapply nth_error_In; exact Ek|].
      exists (ls1 ++ map (MStep k) ls2), w2. rewrite app_assoc. split; [exact M2|]. split; [now rewrite starts_app, S1, St|]. intros i Hi. destruct (Nat.eq_dec i k) as [->|Ne]; [eauto|].
      destruct (F1 i ltac:(lia)) as (q & Q1 & Q2). specialize (O2 i Ne). rewrite Q1 in O2. cbn in O2. destruct (nth_error (w_jobs w2) i) as [q'|]; [|discriminate]. cbn in O2. injection O2 as O2. exists q'. split; [reflexivity|]. now rewrite O2. }
    destruct (Claim _ (le_n _)) as (ls' & w' & M' & S' & F'). exists ls', w'. split; [exact M'|]. split; [exact S'|].
    destruct (msteps_sim _ _ _ (winv_start nt) M') as (gs & V & [Tl1 _] & _).
    assert (Len : List.length (w_jobs w') = List.length (starts ls)) by (rewrite <- (v_len _ _ V), <- (map_length (fun g => (g_c g, g_cs g, g_progs g)) gs), Tl1, starts_app, S', app_nil_r; reflexivity).
    split; [exact Len|]. apply Forall_forall. intros q Hq. apply In_nth_error in Hq as [i Hi]. destruct (F' i) as (q' & Q1 & Q2); [rewrite <- Len; apply nth_error_Some; congruence|]. congruence.
  Qed.
End Many.
