(** From a started pipeline to its result. *)
From Verif Require Import Py RedirModel Os PerformModel PerformSpec RunModel RunSpec RunTopSpec RunEnds IterModel IterSpec IterProofs FileModel FileSpec NetModel NetSpec NetProofs NetTop JobModel JobSpec JobTop JobProofs.

Section Main.
  Variable L : limits.
  Variable pf : ofd -> bool.
  Variables logfd maxfd : nat.
  Variable c : list string.
  Variable cs : list (list string).
  Variables inr outr : option redirect.
  Variables s s' : st.
  Variable its : list item.
  Hypothesis HL : launched_job L pf logfd maxfd c cs inr outr s s' its.
  Notation n := (List.length cs).
  Notation sees := (map (item_sees L logfd maxfd) its).
  Notation see i := (nth i sees (fun _ => None)).
  Notation fds := (proc_fds logfd maxfd).
  Definition the (r : option redirect) : redirect := match r with Some r => r | None => mkRedirect 0 SNone 0 0 None false end.
  Variable f0 : fs.
  Variables typed inp : list N.
  Hypothesis Hinp : input_is f0 inr typed inp.
  Variable progs : list prog.
  Hypothesis Hlp : List.length progs = S n.
  Variable cap : nat.
  Hypothesis Hcap : 0 < cap.
  Variable t0 : job.
  Hypothesis Hb : begin_job L logfd maxfd its f0 progs typed = Some t0.
  Variable out : list N.
  Variable es : nat -> option bool.
  Variable T : Prop.
  Variable ws0 : nat -> list N.
  Variable cs0 : nat -> nat.
  Hypothesis HF : facts cs progs inp out es T ws0 cs0.

  (** What has become of the output [w] so far. *)
  Definition gone_to (t : job) (w : list N) : Prop :=
    match outr with
    | Some r => forall p, r_source r = SPath p -> j_term t = [] /\ (exists st, frun r (fstart f0) (writes n w) = Some st /\ f_fs st = j_fs t) /\ forall q, q <> p -> j_fs t q = f0 q
    | None => exists o1, refers (s_tab s) 1 = Some o1 /\ shown o1 t w /\ j_fs t = f0
    end.
  Lemma job_main ls t : run_job L logfd maxfd cap s s' its t0 ls = Some t ->
    (exists w rest, w ++ rest = out /\ gone_to t w /\ (all_gone t -> rest = [])) /\
    (forall v, j_wait t = Some v -> all_gone t /\ v = j_ok t) /\
    (Forall careful progs -> exists ls' t' v, run_job L logfd maxfd cap s s' its t ls' = Some t' /\ j_wait t' = Some v) /\
    (Forall careful progs -> all_gone t -> forall i, i <= n -> es i = Some false -> j_ok t = false) /\
    (T -> (forall i, i <= n -> es i = Some true) -> j_ok t = true) /\
    (Forall careful progs -> (forall i, i <= n -> es i <> None) -> List.length (filter is_proc ls) <= total cs0 n).
  Proof.
    intros E. destruct HF as (F1 & F2 & F3 & F4).
    destruct (job_facts L pf logfd maxfd c cs inr outr s s' its HL) as (o0 & o1 & E0 & E1 & Li & Sees & Same).
    destruct HL as (_ & _ & _ & Old & NoF & HI & HO & Dif & _ & Hlog & Hmax & _).
    assert (Refers : forall m, refers (s_tab s') m = refers (s_tab s) m) by (intros m; unfold refers; now rewrite Same).
    pose (olast := end_ofd o1 outr).
    assert (Fds : forall m, In m fds <-> m < maxfd /\ m <> logfd).
    { intros m. unfold proc_fds. rewrite filter_In, in_seq, negb_true_iff, Nat.eqb_neq. lia. }
    assert (Oin : forall o, end_ofd o0 inr = o -> (is_end o -> pipe_no o < s_np s) /\ forall p f, o = OFile p f -> f = O_RDONLY /\ f0 p = Some inp /\ exists r, inr = Some r /\ r_source r = SPath p).
    { intros o <-. destruct inr as [r|] eqn:Er; cbn.
      - destruct (HI r eq_refl) as (p & G1 & G2 & G3 & G4). rewrite G2. split; [intros []|]. intros p' f Ep. injection Ep as <- <-. split; [exact G4|].
        destruct Hinp as (p' & X & Y). rewrite G2 in X. injection X as <-. split; [exact Y|]. eauto.
      - split; [apply (Old 0 o0 E0)|]. intros p f ->. exfalso. exact (NoF 0 p f E0). }
    assert (Oout : (is_end olast -> pipe_no olast < s_np s) /\ (forall p f, olast = OFile p f -> exists r, outr = Some r /\ r_source r = SPath p /\ r_flag r = f /\ N.land f (N.lor O_WRONLY O_RDWR) <> 0%N) /\
      (outr = None -> olast = o1)).
    { unfold olast. destruct outr as [r|] eqn:Er; cbn.
      - destruct (HO r eq_refl) as (p & G1 & G2 & G3 & G4). rewrite G2. split; [intros []|]. split; [|discriminate]. intros p' f Ep. injection Ep as <- <-. eauto.
      - split; [apply (Old 1 o1 E1)|]. split; [|reflexivity]. intros p f ->. exfalso. exact (NoF 1 p f E1). }
    destruct (Oin _ eq_refl) as [Oin1 Oin2]. destruct Oout as (Oo1 & Oo2 & Oo3).
    assert (Z0 : see 0 0 = Some (end_ofd o0 inr)) by exact (proj1 (Sees 0 ltac:(lia))).
    assert (Cases : forall i m o, i <= n -> In m fds -> see i m = Some o ->
       o = match i with 0 => end_ofd o0 inr | S j => OPipeR (s_np s + j) end \/ o = (if Nat.eqb i n then olast else OPipeW (s_np s + i)) \/ exists k, o = OTmp k).
    { intros i m o Hi Hm Es. apply Fds in Hm as [Hm1 Hm2]. destruct (Sees i Hi) as (B0 & B1 & (k & B2) & B3). destruct m as [|[|[|m] ] ].
      - left. congruence.
      - right. left. unfold olast. congruence.
      - right. right. exists k. congruence.
      - rewrite B3 in Es by lia. discriminate. }
    assert (Hlen : List.length sees = S n) by (rewrite map_length; exact Li).
    assert (Hin0 : forall k, see 0 0 = Some (OPipeR k) -> k < s_np s).
    { intros k X. rewrite Z0 in X. injection X as X. rewrite X in Oin1. now apply Oin1. }
    assert (Hin1 : see 0 0 <> None) by congruence.
    assert (HinS : forall j, j < n -> see (S j) 0 = Some (OPipeR (s_np s + j))) by (intros j Hj; exact (proj1 (Sees (S j) ltac:(lia)))).
    assert (Hout : forall i, i < n -> see i 1 = Some (OPipeW (s_np s + i))).
    { intros i Hi. rewrite (proj1 (proj2 (Sees i ltac:(lia)))). destruct (Nat.eqb_spec i n); [lia|reflexivity]. }
    assert (Hlast : see n 1 = Some olast) by (rewrite (proj1 (proj2 (Sees n ltac:(lia)))), Nat.eqb_refl; reflexivity).
    assert (Hlastp : forall k, olast = OPipeW k -> k < s_np s) by (intros k X; rewrite X in Oo1; now apply Oo1).
    assert (Hrlast : forall p f, olast = OFile p f -> r_source (the outr) = SPath p /\ r_flag (the outr) = f /\ N.land f (N.lor O_WRONLY O_RDWR) <> 0%N).
    { intros p f X. destruct (Oo2 p f X) as (r & -> & A & B & D). auto. }
    assert (Hsame : forall p f p' f', see 0 0 = Some (OFile p f) -> olast = OFile p' f' -> p <> p').
    { intros p f p' f' X Y. rewrite Z0 in X. injection X as X. destruct (Oin2 p f X) as (_ & _ & r & Er & Sr). destruct (Oo2 p' f' Y) as (r' & Er' & Sr' & _).
      intros ->. apply (Dif r r' Er Er'). congruence. }
    assert (Hro : forall p f, see 0 0 = Some (OFile p f) -> f = O_RDONLY) by (intros p f X; rewrite Z0 in X; injection X as X; now apply (Oin2 p f X)).
    assert (Hw : forall i m k, i <= n -> In m fds -> s_np s <= k -> see i m = Some (OPipeW k) -> k = s_np s + i /\ i < n).
    { intros i m k Hi Hm Hk X. destruct (Cases i m _ Hi Hm X) as [Y|[Y|[k' Y] ] ]; [| |discriminate].
      - destruct i; [|discriminate]. rewrite <- Y in Oin1. specialize (Oin1 Logic.I). cbn in Oin1. lia.
      - destruct (Nat.eqb_spec i n) as [->|Ne]; [symmetry in Y; apply Hlastp in Y; lia|]. injection Y as ->. lia. }
    assert (Hr : forall i m k, i <= n -> In m fds -> s_np s <= k -> see i m = Some (OPipeR k) -> exists j, i = S j /\ k = s_np s + j).
    { intros i m k Hi Hm Hk X. destruct (Cases i m _ Hi Hm X) as [Y|[Y|[k' Y] ] ]; [| |discriminate].
      - destruct i as [|j]; [rewrite <- Y in Oin1; specialize (Oin1 Logic.I); cbn in Oin1; lia|]. exists j. split; [reflexivity|congruence].
      - destruct (Nat.eqb_spec i n) as [->|Ne]; [|discriminate]. rewrite <- Y in Oo1. specialize (Oo1 Logic.I). cbn in Oo1. lia. }
    assert (H0 : In 0 fds) by (apply Fds; lia). assert (H1 : In 1 fds) by (apply Fds; lia).
    assert (Hsw : forall m k, refers (s_tab s') m = Some (OPipeW k) -> k < s_np s) by (intros m k X; rewrite Refers in X; exact (Old m _ X Logic.I)).
    assert (Hsr : forall m k, refers (s_tab s') m = Some (OPipeR k) -> k < s_np s) by (intros m k X; rewrite Refers in X; exact (Old m _ X Logic.I)).
    unfold begin_job in Hb.
    destruct (job_begins (s_np s) n sees f0 olast (the outr) HinS Hout Hlast Hrlast Hsame Hro progs inp typed t0 Hlp Hb) as [R0 W0].
    { intros p f X. rewrite Z0 in X. injection X as X. now apply (Oin2 p f X). }
    { intros X. destruct inr as [r|]; [|exact Hinp]. exfalso. destruct (HI r eq_refl) as (p & _ & G2 & _). apply (X p (r_flag r)). rewrite Z0. cbn. now rewrite G2. }
    pose (okf := fun _ : nat => false). pose (C := Forall careful progs).
    assert (Hokf : C -> forall i, es i = Some false -> okf i = false) by reflexivity.
    assert (I0 : inv byte_handler (s_np s) (vsees (s_np s) n sees) n BInv out es okf C T (net_start byte_handler byte_init progs inp) ws0 cs0).
    { apply inv_start; auto.
      - apply V_len; assumption.
      - rewrite V0 by assumption. contradiction.
      - exact BInv_start.
      - intros i q Ei. destruct (F1 i q Ei) as (B1 & B2 & B3). split; [exact B1|]. split; [|split; [auto|exact B3] ].
        intros HC. apply careful_heeds. unfold C in HC. rewrite Forall_forall in HC. apply HC. eapply nth_error_In; exact Ei. }
    assert (Hrl : forall p f, olast = OFile p f -> r_source (the outr) = SPath p /\ r_flag (the outr) = f) by (intros p f X; destruct (Hrlast p f X) as (A & B & _); auto).
    assert (Re0 : reach (s_np s) n sees f0 olast (the outr) out es okf C T t0 ws0 cs0).
    { split; [intros v Hv; congruence|]. eauto. }
    unfold run_job in E.
    edestruct (reach_steps (s_np s) cap n fds sees (s_tab s') f0 olast (the outr)) with (ls := ls) as (ws' & cs' & Re & B); try eassumption.
    pose proof Re as Says. eapply reach_says in Says; try eassumption. destruct Says as (A1 & A2 & A3).
    split; [|split; [|split; [|split; [|split] ] ] ].
    - destruct A1 as (w & rest & X & Sk & Y). exists w, rest. split; [exact X|]. split; [|exact Y]. unfold gone_to. unfold sink in Sk. destruct outr as [r|] eqn:Er.
      + intros p Ep. unfold olast in Sk. cbn in Sk. rewrite Ep in Sk. destruct Sk as (A & st & d & B1 & B2 & _ & _ & _ & _ & B3). split; [exact A|]. split; [eauto|exact B3].
      + exists o1. split; [exact E1|]. rewrite Oo3 in Sk by reflexivity. destruct o1; try exact Sk. exfalso. exact (NoF 1 p flag E1).
    - exact (proj1 Re).
    - intros HC. unfold run_job. eapply job_ends with (C := C) (es := es) (okf := okf) (n := n); eassumption.
    - exact A2.
    - exact A3.
    - intros HC HE. specialize (B (conj HC HE)). lia.
  Qed.
End Main.
