(** Proofs about starting pipelines, part 9: consequences of the wiring for
    chains, exit codes and arguments. *)
From Verif Require Import Py RedirModel RedirSpec RedirProofs Os PerformModel PerformSpec
  PerformProofs PerformSound RunModel RunSpec RunTopSpec RunProofs RunPre RunMake RunMake2 RunMain RunArgs RunTop.

(** ** Chains *)
Lemma chain_from_app p cs ds : chain_from p (cs ++ ds) = chain_from (chain_from p cs) ds.
Proof. revert p. induction cs as [|c cs IH]; intros p; cbn; [reflexivity|apply IH]. Qed.
Lemma chain_snoc c cs d : chain c (cs ++ [d]) = PPipe (chain c cs) (PCmd (map AWord d)).
Proof. unfold chain. now rewrite chain_from_app. Qed.

Lemma wire_args_words m ws np nt : wire_args m (map AWord ws) np nt = ([], map WWord ws, np, nt).
Proof. induction ws as [|w ws IH]; cbn; [reflexivity|]. fold (wire_args m). now rewrite IH. Qed.

Lemma wire_PPipe a b e np nt : wire (PPipe a b) e np nt =
  let wa := wire a (ask_stdout e) np nt in
  match w_out wa with
  | None => wa
  | Some k =>
      let wb := wire b (feed_stdin e k) (w_np wa) (w_nt wa) in
      mkWired (w_leaves wa ++ w_leaves wb) (w_in wa) (w_out wb) (w_np wb) (w_nt wb)
  end.
Proof. reflexivity. Qed.

(** An environment with three entries. *)
Definition env3 (a : ofd) (y : want) : wenv :=
  [(0, (WOfd a, O_RDONLY)); (1, (y, out_flags)); (2, (WTmp, out_flags))].
Definition io3 (a b c : ofd) : wenv :=
  [(0, (WOfd a, O_RDONLY)); (1, (WOfd b, out_flags)); (2, (WOfd c, out_flags))].

Lemma wire_words_pipe a ws np nt :
  wire (PCmd (map AWord ws)) (env3 a WPipe) np nt =
  mkWired [LProc (io_of (io3 a (OPipeW np) (OTmp nt))) (map WWord ws)] None (Some np) (S np) (S nt).
Proof. rewrite wire_PCmd. cbn [make env3]. rewrite wire_args_words. reflexivity. Qed.
Lemma wire_words_plain a b ws np nt :
  wire (PCmd (map AWord ws)) (env3 a (WOfd b)) np nt =
  mkWired [LProc (io_of (io3 a b (OTmp nt))) (map WWord ws)] None None np (S nt).
Proof. rewrite wire_PCmd. cbn [make env3]. rewrite wire_args_words. reflexivity. Qed.

Definition chain_in (o0 : ofd) (np i : nat) : ofd := match i with 0 => o0 | S j => OPipeR (np + j) end.

(** The [i]-th command of a chain of [S n] commands whose last output is [last]. *)
Definition chain_leaf (o0 : ofd) (np nt n : nat) (last : ofd) (i : nat) (ws : list string) (lf : leaf) : Prop :=
  lf = LProc (io_of (io3 (chain_in o0 np i) (if Nat.eqb i n then last else OPipeW (np + i)) (OTmp (nt + i)))) (map WWord ws).

Lemma wire_chain o0 c np nt : forall cs,
  (let W := wire (chain c cs) (env3 o0 WPipe) np nt in
   w_out W = Some (np + List.length cs) /\ w_np W = np + S (List.length cs) /\ w_nt W = nt + S (List.length cs) /\
   List.length (w_leaves W) = S (List.length cs) /\
   forall i ws, nth_error (c :: cs) i = Some ws -> exists lf, nth_error (w_leaves W) i = Some lf /\
     chain_leaf o0 np nt (List.length cs) (OPipeW (np + List.length cs)) i ws lf) /\
  (forall o1, let W := wire (chain c cs) (env3 o0 (WOfd o1)) np nt in
   List.length (w_leaves W) = S (List.length cs) /\ w_out W = None /\
   forall i ws, nth_error (c :: cs) i = Some ws -> exists lf, nth_error (w_leaves W) i = Some lf /\
     chain_leaf o0 np nt (List.length cs) o1 i ws lf).
Proof.
  induction cs as [|d cs [IH1 IH2]] using rev_ind.
  { split.
    - cbv zeta. unfold chain, chain_from. rewrite wire_words_pipe. cbn. repeat split; try lia; [f_equal; lia|].
      intros [|i] ws E; [|destruct i; discriminate]. injection E as <-. eexists. split; [reflexivity|].
      unfold chain_leaf. cbn. rewrite !Nat.add_0_r. reflexivity.
    - intros o1. cbv zeta. unfold chain, chain_from. rewrite wire_words_plain. cbn. repeat split.
      intros [|i] ws E; [|destruct i; discriminate]. injection E as <-. eexists. split; [reflexivity|].
      unfold chain_leaf. cbn. rewrite !Nat.add_0_r. reflexivity. }
  cbv zeta in IH1. destruct IH1 as [Hout [Hnp [Hnt [Hlen Hl]]]]. clear IH2.
  assert (Split : forall i ws, nth_error (c :: cs ++ [d]) i = Some ws ->
     (i < S (List.length cs) /\ nth_error (c :: cs) i = Some ws) \/ (i = S (List.length cs) /\ ws = d)).
  { intros i ws E. change (c :: cs ++ [d]) with ((c :: cs) ++ [d]) in E.
    destruct (Nat.lt_ge_cases i (S (List.length cs))) as [H|H].
    - left. split; [exact H|]. rewrite nth_error_app1 in E; [exact E|exact H].
    - right. rewrite nth_error_app2 in E by exact H. cbn [List.length] in E.
      destruct (i - S (List.length cs)) as [|j] eqn:Ei; cbn in E.
      + injection E as <-. split; [lia|reflexivity].
      + destruct j; discriminate. }
  split; [|intros o1]; cbv zeta; rewrite chain_snoc, wire_PPipe; cbv zeta.
  - change (ask_stdout (env3 o0 WPipe)) with (env3 o0 WPipe). rewrite Hout.
    change (feed_stdin (env3 o0 WPipe) (np + List.length cs)) with (env3 (OPipeR (np + List.length cs)) WPipe).
    rewrite wire_words_pipe.
    cbn [w_leaves w_out w_np w_nt]. rewrite !app_length, Hnp, Hnt. cbn [List.length].
    split; [f_equal; lia|]. split; [lia|]. split; [lia|]. split; [lia|].
    intros i ws E. destruct (Split i ws E) as [[Hi Hw]|[-> ->]].
    + destruct (Hl i ws Hw) as [lf [G ->]]. eexists. split; [rewrite nth_error_app1; [exact G|lia]|].
      unfold chain_leaf. destruct (Nat.eqb_spec i (List.length cs)) as [->|].
      * replace (List.length cs =? List.length cs + 1) with false by (symmetry; apply Nat.eqb_neq; lia). reflexivity.
      * replace (i =? List.length cs + 1) with false by (symmetry; apply Nat.eqb_neq; lia). reflexivity.
    + eexists. split; [rewrite nth_error_app2 by lia; rewrite Hlen, Nat.sub_diag; reflexivity|].
      unfold chain_leaf. cbn [chain_in].
      replace (S (List.length cs) =? List.length cs + 1) with true by (symmetry; apply Nat.eqb_eq; lia).
      replace (List.length cs + 1) with (S (List.length cs)) by lia. reflexivity.
  - change (ask_stdout (env3 o0 (WOfd o1))) with (env3 o0 WPipe). rewrite Hout.
    change (feed_stdin (env3 o0 (WOfd o1)) (np + List.length cs)) with (env3 (OPipeR (np + List.length cs)) (WOfd o1)).
    rewrite wire_words_plain.
    cbn [w_leaves w_out w_np w_nt]. rewrite !app_length, Hnt. cbn [List.length].
    split; [lia|]. split; [reflexivity|].
    intros i ws E. destruct (Split i ws E) as [[Hi Hw]|[-> ->]].
    + destruct (Hl i ws Hw) as [lf [G ->]]. eexists. split; [rewrite nth_error_app1; [exact G|lia]|].
      unfold chain_leaf. destruct (Nat.eqb_spec i (List.length cs)) as [->|].
      * replace (List.length cs =? List.length cs + 1) with false by (symmetry; apply Nat.eqb_neq; lia). reflexivity.
      * replace (i =? List.length cs + 1) with false by (symmetry; apply Nat.eqb_neq; lia). reflexivity.
    + eexists. split; [rewrite nth_error_app2 by lia; rewrite Hlen, Nat.sub_diag; reflexivity|].
      unfold chain_leaf. cbn [chain_in].
      replace (S (List.length cs) =? List.length cs + 1) with true by (symmetry; apply Nat.eqb_eq; lia).
      reflexivity.
Qed.

Theorem chain_spec o0 o1 piped c cs np nt i ws :
  let W := wire (chain c cs) (top_env o0 o1 piped) np nt in
  let n := List.length cs in
  List.length (w_leaves W) = S n /\
  (nth_error (c :: cs) i = Some ws ->
   exists io, nth_error (w_leaves W) i = Some (LProc io (map WWord ws)) /\
     io 0 = Some (match i with 0 => o0 | S j => OPipeR (np + j) end) /\
     io 1 = Some (if Nat.eqb i n then (if piped then OPipeW (np + n) else o1) else OPipeW (np + i)) /\
     io 2 = Some (OTmp (nt + i)) /\
     (forall m, 2 < m -> io m = None)) /\
  w_out W = (if piped then Some (np + n) else None).
Proof.
  cbv zeta. destruct (wire_chain o0 c np nt cs) as [H1 H2]. specialize (H2 o1). cbv zeta in H1, H2.
  assert (G : forall a b d m, 2 < m -> io_of (io3 a b d) m = None).
  { intros a b d m Hm. destruct m as [|[|[|m]]]; try lia. reflexivity. }
  destruct piped.
  - change (top_env o0 o1 true) with (env3 o0 WPipe). destruct H1 as [Ho [_ [_ [Hl H]]]].
    split; [exact Hl|]. split; [|exact Ho]. intros E. destruct (H i ws E) as [lf [X ->]].
    eexists. split; [exact X|]. cbn. repeat split. intros m Hm. now apply G.
  - change (top_env o0 o1 false) with (env3 o0 (WOfd o1)). destruct H2 as [Hl [Ho H]].
    split; [exact Hl|]. split; [|exact Ho]. intros E. destruct (H i ws E) as [lf [X ->]].
    eexists. split; [exact X|]. cbn. repeat split. intros m Hm. now apply G.
Qed.

Lemma clean_chain can c cs piped : clean can INone piped (chain c cs).
Proof.
  assert (W : forall i o ws, clean can i o (PCmd (map AWord ws))).
  { intros i o ws. cbn. induction ws; cbn; auto. }
  revert piped. induction cs as [|d cs IH] using rev_ind; intros piped; [apply W|].
  rewrite chain_snoc. cbn [clean]. split; [apply IH|apply (W IPiped piped d)].
Qed.

(** ** Exit codes: the last started item is the rightmost command. *)
Lemma rbind_inv {A B} (m : RM A) (f : A -> RM B) s s' b :
  rbind m f s = (s', Ok b) -> exists s1 a, m s = (s1, Ok a) /\ f a s1 = (s', Ok b).
Proof. unfold rbind. destruct (m s) as [s1 [a|e]]; [eauto|discriminate]. Qed.
Ltac rinv H :=
  match type of H with
  | rbind _ _ _ = (_, Ok _) =>
      let s1 := fresh "s" in let a := fresh "a" in let E := fresh "E" in
      apply rbind_inv in H as [s1 [a [E H]]]
  end.

Section Last.
  Variable L : limits.
  Variable pf : ofd -> bool.

  Lemma run_function_last inp rs s s' r its :
    run_function L pf inp rs s = (s', Ok (r, its)) -> exists it, its = [it] /\ item_of (PFun inp) it.
  Proof.
    unfold run_function. intros H. rinv H. rinv H. rinv H. rinv H. rinv H. rinv H.
    injection H as _ <- <-. eexists. split; [reflexivity|]. cbn. destruct inp.
    - rinv E0. rinv E0. rinv E0. injection E0 as _ <-. reflexivity.
    - injection E0 as _ <-. reflexivity.
  Qed.

  Lemma run_args_argv orig l : forall made s s' m its argv,
    run_args L pf orig l made s = (s', Ok (m, its, argv)) -> Forall2 argv_of l argv.
  Proof.
    induction l as [|a l IH]; intros made s s' m its argv; cbn [run_args]; fold (run_args L pf orig).
    - intros H. injection H as _ <- <- <-. constructor.
    - destruct a as [w|q| |]; intros H.
      + rinv H. destruct a as [[m1 i1] v1]. injection H as _ <- <- <-. constructor; [reflexivity|eauto].
      + rinv H. rinv H. destruct a0 as [o1 j1]. rinv H. rinv H. destruct a1 as [m1 fd]. rinv H.
        destruct a1 as [[m2 i2] v2]. injection H as _ <- <- <-. constructor; [exact I|eauto].
      + rinv H. rinv H. destruct a0 as [o1 j1]. rinv H. rinv H. destruct a1 as [m1 fd]. rinv H.
        destruct a1 as [[m2 i2] v2]. injection H as _ <- <- <-. constructor; [exact I|eauto].
      + rinv H. rinv H. destruct a0 as [o1 j1]. rinv H. rinv H. destruct a1 as [m1 fd]. rinv H.
        destruct a1 as [[m2 i2] v2]. injection H as _ <- <- <-. constructor; [exact I|eauto].
  Qed.

  Theorem run_last p : forall rs s s' o its, no_builtin p ->
    run L pf p rs s = (s', Ok (o, its)) ->
    o <> None /\ exists its0 it, its = its0 ++ [it] /\ item_of (rightmost p) it.
  Proof.
    induction p as [args HF|b|a b IHa IHb|a b IHa IHb|q crs IH|] using pl_ind'; intros rs s s' o its Hb H.
    - rewrite run_PCmd in H. rinv H. rinv H. rinv H. destruct a1 as [[m i1] v1]. rinv H. rinv H.
      injection H as _ <- <-. split; [discriminate|]. exists i1, (IProc m a1 v1). split; [reflexivity|].
      eapply run_args_argv; eauto.
    - cbn [run] in H. rinv H. destruct a as [r i1]. injection H as _ <- <-. split; [discriminate|].
      destruct (run_function_last _ _ _ _ _ _ E) as [it [-> Hi]]. exists [], it. auto.
    - cbn [run] in H. destruct Hb as [Ba Bb]. rinv H. cbv zeta in H. rinv H. rinv H. destruct a2 as [oa ia]. rinv H. rinv H.
      rinv H. destruct a4 as [ob ib]. destruct (IHb _ _ _ _ _ Bb E4) as [Hob [its0 [it [-> Hi]]]].
      destruct (IHa _ _ _ _ _ Ba E1) as [Hoa _]. destruct oa as [ra|]; [|congruence]. destruct ob as [rb|]; [|congruence].
      rinv H. rinv H. rinv H. rinv H. rinv H. rinv H. injection H as _ <- <-. split; [discriminate|].
      exists (ia ++ its0), it. split; [apply app_assoc|exact Hi].
    - cbn [run] in H. destruct Hb as [Ba Bb]. rinv H. cbv zeta in H. rinv H. destruct a1 as [oa ia]. rinv H. destruct a1 as [ob ib].
      destruct (IHb _ _ _ _ _ Bb E1) as [Hob [its0 [it [-> Hi]]]].
      destruct (IHa _ _ _ _ _ Ba E0) as [Hoa _]. destruct oa as [ra|]; [|congruence]. destruct ob as [rb|]; [|congruence].
      rinv H. rinv H. injection H as _ <- <-. split; [discriminate|].
      exists (ia ++ its0), it. split; [apply app_assoc|exact Hi].
    - cbn [run] in H. rinv H. exact (IH _ _ _ _ _ Hb H).
    - destruct Hb.
  Qed.

  (** Builtins that start nothing cannot be piped. *)
  Lemma run_pipe_builtin_r a rs s s' x : run L pf (PPipe a PBuiltin) rs s <> (s', Ok x).
  Proof.
    intros H. cbn [run] in H. rinv H. cbv zeta in H. rinv H. rinv H. destruct a2 as [oa ia]. rinv H. rinv H.
    rinv H. cbn in E4. injection E4 as _ <-. destruct oa; discriminate H.
  Qed.
  Lemma run_pipe_builtin_l b rs s s' x : run L pf (PPipe PBuiltin b) rs s <> (s', Ok x).
  Proof.
    intros H. cbn [run] in H. rinv H. cbv zeta in H. rinv H. rinv H. cbn in E1. injection E1 as _ <-.
    rinv H. rinv H. rinv H. destruct a3 as [ob ib]. destruct ob; discriminate H.
  Qed.
End Last.

(** ** Argument pipes *)

Lemma make_asked e k f : forall np nt m np' nt', make e np nt = (m, np', nt') ->
  dget e k = Some (WPipe, f) ->
  exists j, asked e np k = Some j /\ io_of m k = Some (if is_write f then OPipeW j else OPipeR j) /\ np <= j < np'.
Proof.
  assert (M : forall e np nt m np' nt', make e np nt = (m, np', nt') -> np <= np').
  { clear. induction e as [|[k0 [w f0]] e IH]; intros np nt m np' nt'; cbn.
    - intros E. injection E as _ <- _. lia.
    - destruct w; cbn; (match goal with |- context [make e ?x ?y] => destruct (make e x y) as [[r np2] nt2] eqn:E1 end);
        intros E; injection E as _ <- _; apply IH in E1; lia. }
  induction e as [|[k0 [w f0]] e IH]; intros np nt m np' nt'; cbn; [discriminate|].
  destruct (Nat.eqb_spec k k0) as [->|Hne].
  - intros Hm E. injection E as -> ->. exists np. cbn in Hm.
    destruct (make e (S np) nt) as [[r np2] nt2] eqn:E1. injection Hm as <- <- <-.
    split; [reflexivity|]. unfold io_of. cbn. rewrite Nat.eqb_refl. cbn.
    split; [destruct (is_write f); reflexivity|]. apply M in E1. lia.
  - intros Hm E. 
    assert (X : exists np1 nt1 w', match w with
        | WPipe => (WOfd (if is_write f0 then OPipeW np else OPipeR np), S np, nt)
        | WTmp => (WOfd (OTmp nt), np, S nt) | _ => (w, np, nt) end = (w', np1, nt1) /\ np <= np1 /\
        match w with WPipe => asked e (S np) k | _ => asked e np k end = asked e np1 k).
    { destruct w; do 3 eexists; (split; [reflexivity|split; [lia|reflexivity]]). }
    destruct X as [np1 [nt1 [w' [X [Hle Ha]]]]]. rewrite X in Hm.
    destruct (make e np1 nt1) as [[r np2] nt2] eqn:E1. injection Hm as <- <- <-.
    destruct (IH _ _ _ _ _ E1 E) as [j [A [B C]]]. exists j.
    split; [destruct w; rewrite Ha; exact A|]. split; [|lia].
    unfold io_of in *. cbn. destruct (Nat.eqb_spec k k0); [congruence|exact B].
Qed.
Lemma make_mono e : forall np nt m np' nt', make e np nt = (m, np', nt') -> np <= np'.
Proof.
  induction e as [|[k0 [w f0]] e IH]; intros np nt m np' nt'; cbn.
  - intros E. injection E as _ <- _. lia.
  - destruct w; cbn; (match goal with |- context [make e ?x ?y] => destruct (make e x y) as [[r np2] nt2] eqn:E1 end);
      intros E; injection E as _ <- _; apply IH in E1; lia.
Qed.

Lemma ask_stdout_get e : dget (ask_stdout e) 1 = Some (WPipe, out_flags).
Proof. unfold ask_stdout. now rewrite dget_dset. Qed.
Lemma ask_stdin_get e : dget (ask_stdin e) 0 = Some (WPipe, O_RDONLY).
Proof. unfold ask_stdin. now rewrite dget_dset. Qed.

Definition wire_mono_at (p : pl) : Prop := forall e np nt, np <= w_np (wire p e np nt).
Lemma wire_function_mono inp e np nt : np <= w_np (wire_function inp e np nt).
Proof.
  unfold wire_function. destruct (make e np nt) as [[m np1] nt1] eqn:E. cbn. eapply make_mono; eauto.
Qed.
Lemma wire_args_mono m l :
  Forall (fun a => match a with APipeline q => wire_mono_at q | _ => True end) l ->
  forall np nt ls ws np' nt', wire_args m l np nt = (ls, ws, np', nt') -> np <= np'.
Proof.
  intros HF. induction HF as [|a l Ha HF IH]; intros np nt ls ws np' nt'; cbn [wire_args]; fold (wire_args m).
  - intros E. injection E as _ _ <- _. lia.
  - destruct a as [w|q| |]; cbv zeta.
    + destruct (wire_args m l np nt) as [[[l1 w1] n1] t1] eqn:E1. intros E. injection E as _ _ <- _. eauto.
    + specialize (Ha (ask_stdout m) np nt).
      destruct (wire_args m l (w_np (wire q (ask_stdout m) np nt)) (w_nt (wire q (ask_stdout m) np nt))) as [[[l1 w1] n1] t1] eqn:E1.
      intros E. injection E as _ _ <- _. apply IH in E1. lia.
    + pose proof (wire_function_mono true (ask_stdin m) np nt) as Ha'.
      destruct (wire_args m l (w_np (wire_function true (ask_stdin m) np nt)) (w_nt (wire_function true (ask_stdin m) np nt))) as [[[l1 w1] n1] t1] eqn:E1.
      intros E. injection E as _ _ <- _. apply IH in E1. lia.
    + pose proof (wire_function_mono false (ask_stdout m) np nt) as Ha'.
      destruct (wire_args m l (w_np (wire_function false (ask_stdout m) np nt)) (w_nt (wire_function false (ask_stdout m) np nt))) as [[[l1 w1] n1] t1] eqn:E1.
      intros E. injection E as _ _ <- _. apply IH in E1. lia.
Qed.
Lemma wire_mono p : wire_mono_at p.
Proof.
  induction p as [args HF|b|a b IHa IHb|a b IHa IHb|q crs IH|] using pl_ind'; intros e np nt.
  - rewrite wire_PCmd. destruct (make e np nt) as [[m np1] nt1] eqn:E.
    destruct (wire_args m args np1 nt1) as [[[ls ws] np2] nt2] eqn:E2. cbn.
    apply make_mono in E. apply (wire_args_mono m args HF) in E2. lia.
  - apply wire_function_mono.
  - cbn [wire]. destruct (w_out (wire a (ask_stdout e) np nt)); [|apply IHa]. cbn.
    specialize (IHa (ask_stdout e) np nt). etransitivity; [exact IHa|]. apply IHb.
  - cbn [wire w_np]. etransitivity; [apply IHa|apply IHb].
  - cbn [wire]. apply IH.
  - cbn. lia.
Qed.

Lemma override_keep e l k : (forall r, In r l -> r_fd r <> k) -> dget (override e l) k = dget e k.
Proof.
  revert e. induction l as [|r l IH]; intros e H; cbn; [reflexivity|].
  rewrite IH by (intros x Hx; apply H; now right). rewrite dget_dset. cbn.
  destruct (Nat.eqb_spec k (r_fd r)) as [E|]; [|reflexivity]. exfalso. eapply H; [now left|congruence].
Qed.

(** A pipeline asked for its output writes it to the pipe it hands out. *)
Lemma wire_writer can p : forall i e np nt, clean can i true p -> dget e 1 = Some (WPipe, out_flags) ->
  exists k ls lf, w_out (wire p e np nt) = Some k /\ np <= k < w_np (wire p e np nt) /\
    w_leaves (wire p e np nt) = ls ++ [lf] /\ leaf_out lf = Some (OPipeW k).
Proof.
  induction p as [args HF|b|a b IHa IHb|a b IHa IHb|q crs IH|] using pl_ind'; intros i e np nt Hc Hg.
  - rewrite wire_PCmd. destruct (make e np nt) as [[m np1] nt1] eqn:E.
    destruct (make_asked e 1 out_flags np nt m np1 nt1 E Hg) as [j [A [B C]]].
    destruct (wire_args m args np1 nt1) as [[[ls ws] np2] nt2] eqn:E2. cbn.
    exists j, ls, (LProc (io_of m) ws). split; [exact A|]. split; [|split; [reflexivity|exact B]].
    assert (np1 <= np2).
    { eapply wire_args_mono; [|exact E2]. eapply Forall_impl; [|exact HF].
      intros x _. destruct x; auto. apply wire_mono. }
    lia.
  - cbn [wire]. unfold wire_function. destruct (make e np nt) as [[m np1] nt1] eqn:E.
    destruct (make_asked e 1 out_flags np nt m np1 nt1 E Hg) as [j [A [B C]]].
    exists j, []. eexists. cbn. split; [exact A|]. split; [exact C|]. split; [reflexivity|exact B].
  - destruct Hc as [Ca Cb]. cbn [wire].
    destruct (IHa _ (ask_stdout e) np nt Ca (ask_stdout_get e)) as [k [ls [lf [X1 [X2 [X3 X4]]]]]].
    rewrite X1.
    assert (Hg' : dget (feed_stdin e k) 1 = Some (WPipe, out_flags)) by (unfold feed_stdin; rewrite dget_dset; exact Hg).
    destruct (IHb _ (feed_stdin e k) (w_np (wire a (ask_stdout e) np nt)) (w_nt (wire a (ask_stdout e) np nt)) Cb Hg')
      as [k2 [ls2 [lf2 [Y1 [Y2 [Y3 Y4]]]]]].
    exists k2, (w_leaves (wire a (ask_stdout e) np nt) ++ ls2), lf2. cbn.
    split; [exact Y1|]. split; [lia|]. split; [rewrite Y3; apply app_assoc|exact Y4].
  - destruct Hc as [_ [X _]]. discriminate.
  - destruct Hc as [_ [Hcl Hq]]. cbn [wire]. apply (IH i); [exact Hq|].
    rewrite override_keep; [exact Hg|]. intros r Hr E.
    apply in_map_iff in Hr as [[k0 r0] [E0 Hin]]. cbn in E0. subst r0.
    rewrite Forall_forall in Hcl. destruct (Hcl _ Hin) as [_ [X _]]. specialize (X E). discriminate.
  - destruct Hc.
Qed.


Lemma arg_wired_incl ls ls' a w : incl ls ls' -> arg_wired ls a w -> arg_wired ls' a w.
Proof. intros H. destruct a; cbn; auto; intros [k [lf [A [B C]]]]; exists k, lf; auto. Qed.

Lemma wire_args_wired can m : forall l, 
  (fix clean_args (l : list arg) : Prop :=
     match l with
     | [] => True
     | APipeline q :: l' => clean can INone true q /\ clean_args l'
     | _ :: l' => clean_args l'
     end) l ->
  forall np nt ls ws np' nt',
  wire_args m l np nt = (ls, ws, np', nt') ->
  Forall2 (arg_wired ls) l ws /\ NoDup (map pipe_no (arg_ofds ws)) /\
  (forall o, In o (arg_ofds ws) -> np <= pipe_no o).
Proof.
  assert (Step : forall (ls1 l1 : list leaf) l (w1 : list warg) a o np n1,
    arg_wired ls1 a (WArg o) -> np <= pipe_no o -> pipe_no o < n1 ->
    Forall2 (arg_wired l1) l w1 -> NoDup (map pipe_no (arg_ofds w1)) ->
    (forall o, In o (arg_ofds w1) -> n1 <= pipe_no o) ->
    Forall2 (arg_wired (ls1 ++ l1)) (a :: l) (WArg o :: w1) /\ NoDup (map pipe_no (arg_ofds (WArg o :: w1))) /\
    (forall o', In o' (arg_ofds (WArg o :: w1)) -> np <= pipe_no o')).
  { intros ls1 l1 l w1 a o np n1 Ha Hle Hlt HF Hnd Hb. split; [|split].
    - constructor.
      + eapply arg_wired_incl; [|exact Ha]. intros x Hx. apply in_app_iff. auto.
      + eapply Forall2_impl; [|exact HF]. intros x y. apply arg_wired_incl. intros z Hz. apply in_app_iff. auto.
    - cbn. constructor; [|exact Hnd]. intros Hin. apply in_map_iff in Hin as [o' [E Hin]].
      specialize (Hb o' Hin). lia.
    - cbn. intros o' [<-|Hin]; [exact Hle|]. specialize (Hb o' Hin). lia. }
  induction l as [|a l IH]; intros Hc np nt ls ws np' nt'; cbn [wire_args]; fold (wire_args m).
  - intros E. injection E as <- <- _ _. repeat split; constructor || contradiction.
  - destruct a as [w|q| |]; cbv zeta.
    + destruct (wire_args m l np nt) as [[[l1 w1] n1] t1] eqn:E1. intros E. injection E as <- <- _ _.
      destruct (IH Hc _ _ _ _ _ _ E1) as [A [B C]]. split; [constructor; [reflexivity|exact A]|]. split; [exact B|exact C].
    + destruct Hc as [Hq Hc].
      destruct (wire_writer can q INone (ask_stdout m) np nt Hq (ask_stdout_get m)) as [k [ls0 [lf [X1 [X2 [X3 X4]]]]]].
      rewrite X1.
      destruct (wire_args m l (w_np (wire q (ask_stdout m) np nt)) (w_nt (wire q (ask_stdout m) np nt))) as [[[l1 w1] n1] t1] eqn:E1.
      intros E. injection E as <- <- _ _. destruct (IH Hc _ _ _ _ _ _ E1) as [A [B C]].
      refine (Step _ _ _ _ _ _ np _ _ _ _ A B C); cbn [pipe_no]; [|lia|lia]. exists k, lf. split; [reflexivity|]. split; [|exact X4].
      rewrite X3. apply in_app_iff. right. now left.
    + assert (X : exists k lf, w_in (wire_function true (ask_stdin m) np nt) = Some k /\
        np <= k < w_np (wire_function true (ask_stdin m) np nt) /\
        w_leaves (wire_function true (ask_stdin m) np nt) = [lf] /\ leaf_in lf = Some (OPipeR k)).
      { unfold wire_function. destruct (make (ask_stdin m) np nt) as [[m1 np1] nt1] eqn:E.
        destruct (make_asked (ask_stdin m) 0 O_RDONLY np nt m1 np1 nt1 E (ask_stdin_get m)) as [j [A [B C]]].
        exists j. eexists. cbn. split; [exact A|]. split; [exact C|]. split; [reflexivity|]. exact B. }
      destruct X as [k [lf [X1 [X2 [X3 X4]]]]]. rewrite X1.
      destruct (wire_args m l (w_np (wire_function true (ask_stdin m) np nt)) (w_nt (wire_function true (ask_stdin m) np nt))) as [[[l1 w1] n1] t1] eqn:E1.
      intros E. injection E as <- <- _ _. destruct (IH Hc _ _ _ _ _ _ E1) as [A [B C]].
      refine (Step _ _ _ _ _ _ np _ _ _ _ A B C); cbn [pipe_no]; [|lia|lia]. exists k, lf. split; [reflexivity|]. split; [|exact X4].
      rewrite X3. now left.
    + assert (X : exists k lf, w_out (wire_function false (ask_stdout m) np nt) = Some k /\
        np <= k < w_np (wire_function false (ask_stdout m) np nt) /\
        w_leaves (wire_function false (ask_stdout m) np nt) = [lf] /\ leaf_out lf = Some (OPipeW k)).
      { unfold wire_function. destruct (make (ask_stdout m) np nt) as [[m1 np1] nt1] eqn:E.
        destruct (make_asked (ask_stdout m) 1 out_flags np nt m1 np1 nt1 E (ask_stdout_get m)) as [j [A [B C]]].
        exists j. eexists. cbn. split; [exact A|]. split; [exact C|]. split; [reflexivity|]. exact B. }
      destruct X as [k [lf [X1 [X2 [X3 X4]]]]]. rewrite X1.
      destruct (wire_args m l (w_np (wire_function false (ask_stdout m) np nt)) (w_nt (wire_function false (ask_stdout m) np nt))) as [[[l1 w1] n1] t1] eqn:E1.
      intros E. injection E as <- <- _ _. destruct (IH Hc _ _ _ _ _ _ E1) as [A [B C]].
      refine (Step _ _ _ _ _ _ np _ _ _ _ A B C); cbn [pipe_no]; [|lia|lia]. exists k, lf. split; [reflexivity|]. split; [|exact X4].
      rewrite X3. now left.
Qed.

Theorem command_args_wired can i o args e np nt : clean can i o (PCmd args) ->
  exists ls io ws, w_leaves (wire (PCmd args) e np nt) = ls ++ [LProc io ws] /\
    Forall2 (arg_wired ls) args ws /\ NoDup (map pipe_no (arg_ofds ws)).
Proof.
  intros Hc. rewrite wire_PCmd. destruct (make e np nt) as [[m np1] nt1] eqn:E.
  destruct (wire_args m args np1 nt1) as [[[ls ws] np2] nt2] eqn:E2. cbn [w_leaves].
  exists ls, (io_of m), ws. split; [reflexivity|].
  destruct (wire_args_wired can m args Hc np1 nt1 ls ws np2 nt2 E2) as [A [B _]]. auto.
Qed.
