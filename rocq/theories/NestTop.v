(** From a started pipeline with pipelines as arguments to the network of its processes. *)
From Coq Require Import Permutation.
From Verif Require Import Py RedirModel RedirSpec RedirProofs Os PerformModel PerformSpec PerformProofs PerformSound RunModel RunSpec RunTopSpec
  RunProofs RunPre RunMake RunMake2 RunMain RunArgs RunTop RunEnds RunMore RunStarted RunFinal IterModel IterSpec IterProofs NetModel NetSpec NetProofs NetTop NestModel NestSpec NestProofs.

Scheme evals_mind := Induction for evals Sort Prop with evals_args_mind := Induction for evals_args Sort Prop.
Combined Scheme evals_both from evals_mind, evals_args_mind.

(** A process of the network: what it reads and writes. *)
Record gnode := G { g_in : ofd; g_out : nat; g_args : list (option nat); g_own : input; g_outs : list (option (list N)); g_prog : mprog; g_bytes : list N; g_ok : bool }.

Section Build.
  Variable R : asking.
  Variable o0 : ofd.
  Variable inp : list N.
  Variable EE : Prop.     (* the shell's standard input is at its end for everybody *)
  Definition comes (pre : list gnode) (i0 : ofd) : Prop := i0 = o0 \/ exists nd, In nd pre /\ i0 = OPipeR (g_out nd).
  Definition src_ok (pre : list gnode) (i0 : ofd) (i : input) : Prop :=
    match i with
    | Nothing => True
    | Ended => i0 = o0 /\ EE
    | Bytes bs => (i0 = o0 /\ bs = inp) \/ exists nd, In nd pre /\ i0 = OPipeR (g_out nd) /\ g_bytes nd = bs
    end.
  Definition arg_from (pre : list gnode) (a : option nat) (o : option (list N)) : Prop :=
    match a, o with None, None => True | Some k, Some bs => exists nd, In nd pre /\ g_out nd = k /\ g_bytes nd = bs | _, _ => False end.
  Definition node_ok (pre : list gnode) (nd : gnode) : Prop :=
    comes pre (g_in nd) /\ src_ok pre (g_in nd) (g_own nd) /\ Forall2 (arg_from pre) (g_args nd) (g_outs nd) /\
    mdoes (g_prog nd) (files (g_own nd) (g_outs nd)) (g_bytes nd) (g_ok nd) /\ R (g_prog nd) (g_own nd) (g_outs nd).
  Fixpoint chain_ok (pre nodes : list gnode) : Prop :=
    match nodes with [] => True | nd :: r => node_ok pre nd /\ chain_ok (pre ++ [nd]) r end.
  Lemma chain_ok_app nodes : forall pre more, chain_ok pre (nodes ++ more) <-> chain_ok pre nodes /\ chain_ok (pre ++ nodes) more.
  Proof.
    induction nodes as [|nd nodes IH]; intros pre more; cbn [chain_ok List.app]; [rewrite app_nil_r; tauto|].
    rewrite IH. rewrite <- app_assoc. cbn [List.app]. tauto.
  Qed.
  Lemma chain_ok_nth nodes : forall pre i nd, chain_ok pre nodes -> nth_error nodes i = Some nd -> node_ok (pre ++ firstn i nodes) nd.
  Proof.
    induction nodes as [|x nodes IH]; intros pre [|i] nd; cbn; try discriminate.
    - intros [A _] E. injection E as <-. now rewrite app_nil_r.
    - intros [_ A] E. specialize (IH _ _ _ A E). rewrite <- app_assoc in IH. exact IH.
  Qed.
  Lemma comes_mono pre pre' i0 : incl pre pre' -> comes pre i0 -> comes pre' i0.
  Proof. intros S [X|(nd & A & B)]; [now left|right; exists nd; auto]. Qed.
  Lemma src_mono pre pre' i0 i : incl pre pre' -> src_ok pre i0 i -> src_ok pre' i0 i.
  Proof. intros S. destruct i as [| |bs]; cbn; auto. intros [X|(nd & A & B)]; [now left|right; exists nd; auto]. Qed.
  Lemma arg_mono pre pre' a o : incl pre pre' -> arg_from pre a o -> arg_from pre' a o.
  Proof. intros S. destruct a, o; cbn; auto. intros (nd & A & B). exists nd. auto. Qed.

  Definition arg_wire (w : warg) (a : option nat) : Prop := match a with Some k => w = WArg (OPipeR k) | None => exists x, w = WWord x end.
  Definition leaf_is (lf : leaf) (nd : gnode) : Prop := exists io ws t,
    lf = LProc io ws /\ io 0 = Some (g_in nd) /\ io 1 = Some (OPipeW (g_out nd)) /\ io 2 = Some (OTmp t) /\ (forall n, 2 < n -> io n = None) /\
    Forall2 arg_wire ws (g_args nd).
  Definition pipes_of (l : list (option nat)) : list ofd := flat_map (fun a => match a with Some k => [OPipeR k] | None => [] end) l.
  Definition extern (i : input) (i0 : ofd) : list ofd := match i with Bytes _ => [i0] | _ => [] end.
  Definition sources (nd : gnode) : list ofd := pipes_of (g_args nd) ++ extern (g_own nd) (g_in nd).
  Definition outs (l : list gnode) : list ofd := map (fun nd => OPipeR (g_out nd)) l.
  Lemma outs_app a b : outs (a ++ b) = outs a ++ outs b.
  Proof. apply map_app. Qed.

  Definition nodes_ok (pre : list gnode) (np np' : nat) (ls : list leaf) (ps : list mprog) (oks : list bool) (nodes : list gnode) : Prop :=
    Forall2 leaf_is ls nodes /\ chain_ok pre nodes /\ map g_prog nodes = ps /\ map g_ok nodes = oks /\
    NoDup (map g_out nodes) /\ Forall (fun nd => np <= g_out nd < np') nodes /\ np <= np'.
  Lemma nodes_ok_app pre np np1 np2 ls1 ls2 ps1 ps2 oks1 oks2 n1 n2 :
    nodes_ok pre np np1 ls1 ps1 oks1 n1 -> nodes_ok (pre ++ n1) np1 np2 ls2 ps2 oks2 n2 -> nodes_ok pre np np2 (ls1 ++ ls2) (ps1 ++ ps2) (oks1 ++ oks2) (n1 ++ n2).
  Proof.
    intros (A1 & A2 & A3 & A4 & A5 & A6 & A7) (B1 & B2 & B3 & B4 & B5 & B6 & B7). repeat split.
    - now apply Forall2_app.
    - apply chain_ok_app. now split.
    - rewrite map_app. now f_equal.
    - rewrite map_app. now f_equal.
    - rewrite map_app. apply NoDup_app_intro; auto. intros k X Y. apply in_map_iff in X as (x & <- & X), Y as (y & E & Y).
      rewrite Forall_forall in A6, B6. specialize (A6 x X). specialize (B6 y Y). lia.
    - apply Forall_app. split; eapply Forall_impl; try eassumption; cbn; intros; lia.
    - lia.
  Qed.

  Definition e3 (i0 : ofd) (w2 : want) : wenv := [(0, (WOfd i0, O_RDONLY)); (1, (WPipe, out_flags)); (2, (w2, out_flags))].
  Definition tmpish (w : want) : Prop := w = WTmp \/ exists t, w = WOfd (OTmp t).

  Lemma build :
    (forall p i ps out oks, evals R p i ps out oks -> forall pre i0 w2 np nt, tmpish w2 -> comes pre i0 -> src_ok pre i0 i ->
       let W := wire p (e3 i0 w2) np nt in
       exists nodes lst, nodes_ok pre np (w_np W) (w_leaves W) ps oks (nodes ++ [lst]) /\ w_out W = Some (g_out lst) /\ g_bytes lst = out /\
         Permutation (flat_map sources (nodes ++ [lst])) (outs nodes ++ extern i i0)) /\
    (forall args i ps argouts oks, evals_args R args i ps argouts oks -> forall pre i0 o1 t np nt, (forall bs, i <> Bytes bs) -> comes pre i0 -> src_ok pre i0 i ->
       let m := io3 i0 o1 (OTmp t) in
       let '(ls, ws, np', nt') := wire_args m args np nt in
       exists nodes aps, nodes_ok pre np np' ls ps oks nodes /\ Forall2 arg_wire ws aps /\ Forall2 (arg_from (pre ++ nodes)) aps argouts /\
         Permutation (flat_map sources nodes ++ pipes_of aps) (outs nodes)).
  Proof.
    apply evals_both.
    - intros args i ps argouts oks p out ok _ IH Hd HR pre i0 w2 np nt Hw Hc Hs. cbv zeta. rewrite wire_PCmd.
      assert (M : exists t nt1, make (e3 i0 w2) np nt = (io3 i0 (OPipeW np) (OTmp t), S np, nt1)) by (destruct Hw as [->|[t ->] ]; [exists nt, (S nt); reflexivity|exists t, nt; reflexivity]).
      destruct M as (t & nt1 & ->). specialize (IH pre i0 (OPipeW np) t (S np) nt1). cbv zeta in IH.
      destruct (wire_args (io3 i0 (OPipeW np) (OTmp t)) args (S np) nt1) as [ [ [ls ws] np2] nt2].
      destruct IH as (nodes & aps & HN & Hw1 & Hw2 & HP); [destruct i; discriminate|exact Hc|destruct i; cbn in *; auto|].
      set (nd := G i0 np aps i argouts p out ok). exists nodes, nd.
      assert (Hasked : asked (e3 i0 w2) np 1 = Some np) by reflexivity.
      cbn [w_leaves w_out w_np]. destruct HN as (A1 & A2 & A3 & A4 & A5 & A6 & A7). split; [|split; [exact Hasked|split; [reflexivity|]]].
      + repeat split.
        * apply Forall2_app; [exact A1|]. constructor; [|constructor]. exists (io_of (io3 i0 (OPipeW np) (OTmp t))), ws, t. repeat split; auto.
          intros [|[|[|m] ] ] Hm; try lia. reflexivity.
        * apply chain_ok_app. split; [exact A2|]. cbn. split; [|exact I]. repeat split; cbn; auto.
          -- eapply comes_mono; [|exact Hc]. intros y Hy. apply in_or_app. now left.
          -- eapply src_mono; [|exact Hs]. intros y Hy. apply in_or_app. now left.
        * rewrite map_app. cbn. now f_equal.
        * rewrite map_app. cbn. now f_equal.
        * rewrite map_app. apply NoDup_app_intro; auto; [repeat constructor; intros []|]. cbn. intros k X [<-|[]]. apply in_map_iff in X as (y & E & X).
          rewrite Forall_forall in A6. specialize (A6 y X). cbn in E. lia.
        * apply Forall_app. split; [eapply Forall_impl; [|exact A6]; cbn; intros; lia|]. repeat constructor; cbn; lia.
        * lia.
      + rewrite flat_map_app. cbn [flat_map]. rewrite app_nil_r. unfold sources at 2. cbn [g_args g_own g_in nd]. rewrite app_assoc. now apply Permutation_app_tail.
    - intros a b i ps qs mid out oks1 oks2 _ IHa _ IHb pre i0 w2 np nt Hw Hc Hs. cbv zeta. rewrite wire_PPipe. cbv zeta.
      change (ask_stdout (e3 i0 w2)) with (e3 i0 w2).
      destruct (IHa pre i0 w2 np nt Hw Hc Hs) as (n1 & l1 & HN1 & Ho1 & Hb1 & HP1). rewrite Ho1.
      change (feed_stdin (e3 i0 w2) (g_out l1)) with (e3 (OPipeR (g_out l1)) w2).
      set (W1 := wire a (e3 i0 w2) np nt) in *.
      destruct (IHb (pre ++ n1 ++ [l1]) (OPipeR (g_out l1)) w2 (w_np W1) (w_nt W1)) as (n2 & l2 & HN2 & Ho2 & Hb2 & HP2); [exact Hw| | |].
      { right. exists l1. split; [|reflexivity]. rewrite !in_app_iff. right. right. now left. }
      { cbn. right. exists l1. split; [|split; [reflexivity|exact Hb1] ]. rewrite !in_app_iff. right. right. now left. }
      exists ((n1 ++ [l1]) ++ n2), l2. cbn [w_leaves w_out w_np]. rewrite <- (app_assoc (n1 ++ [l1])). split; [|split; [exact Ho2|split; [exact Hb2|] ] ].
      + eapply nodes_ok_app; eassumption.
      + rewrite flat_map_app. rewrite !outs_app. cbn [extern] in HP2.
        etransitivity; [apply Permutation_app; [exact HP1|exact HP2] |]. cbn [outs map]. rewrite <- !app_assoc. apply Permutation_app_head.
        rewrite app_assoc. etransitivity; [apply Permutation_app_comm|]. cbn [List.app]. apply perm_skip. apply Permutation_app_comm.
    - intros i pre i0 o1 t np nt Hi Hc Hs. cbn. exists [], []. repeat split; try constructor; auto.
    - intros w l i ps outs0 oks _ IH pre i0 o1 t np nt Hi Hc Hs. cbv zeta. specialize (IH pre i0 o1 t np nt Hi Hc Hs). cbv zeta in IH.
      change (wire_args (io3 i0 o1 (OTmp t)) (AWord w :: l) np nt) with (let '(ls, ws, np', nt') := wire_args (io3 i0 o1 (OTmp t)) l np nt in (ls, WWord w :: ws, np', nt')).
      destruct (wire_args (io3 i0 o1 (OTmp t)) l np nt) as [ [ [ls ws] np2] nt2]. destruct IH as (nodes & aps & HN & H1 & H2 & HP).
      exists nodes, (None :: aps). split; [exact HN|]. split; [constructor; [now exists w|exact H1] |]. split; [constructor; [exact I|exact H2] |exact HP].
    - intros q l i ps qs out outs0 oks1 oks2 _ IHq _ IHl pre i0 o1 t np nt Hi Hc Hs. cbv zeta.
      change (wire_args (io3 i0 o1 (OTmp t)) (APipeline q :: l) np nt) with
        (let wq := wire q (e3 i0 (WOfd (OTmp t))) np nt in
         let '(ls, ws, np', nt') := wire_args (io3 i0 o1 (OTmp t)) l (w_np wq) (w_nt wq) in
         (w_leaves wq ++ ls, match w_out wq with Some k => WArg (OPipeR k) | None => WWord "" end :: ws, np', nt')). cbv zeta.
      destruct (IHq pre i0 (WOfd (OTmp t)) np nt (or_intror (ex_intro _ t eq_refl)) Hc Hs) as (n1 & l1 & HN1 & Ho1 & Hb1 & HP1).
      set (W1 := wire q (e3 i0 (WOfd (OTmp t))) np nt) in *. rewrite Ho1.
      assert (In1 : incl pre (pre ++ n1 ++ [l1])) by (intros y Hy; apply in_or_app; now left).
      specialize (IHl (pre ++ n1 ++ [l1]) i0 o1 t (w_np W1) (w_nt W1) Hi (comes_mono _ _ _ In1 Hc) (src_mono _ _ _ _ In1 Hs)). cbv zeta in IHl.
      destruct (wire_args (io3 i0 o1 (OTmp t)) l (w_np W1) (w_nt W1)) as [ [ [ls ws] np2] nt2]. destruct IHl as (n2 & aps & HN2 & H1 & H2 & HP2).
      exists ((n1 ++ [l1]) ++ n2), (Some (g_out l1) :: aps). split; [eapply nodes_ok_app; eassumption|]. split; [constructor; [reflexivity|exact H1] |]. split.
      + rewrite app_assoc. constructor.
        * exists l1. split; [rewrite !in_app_iff; cbn; auto|]. now split.
        * rewrite <- app_assoc in H2 |- *. rewrite <- app_assoc in H2 |- *. exact H2.
      + assert (Ei : extern i i0 = []) by (destruct i; try reflexivity; now destruct (Hi bs)). rewrite Ei, app_nil_r in HP1.
        rewrite flat_map_app, !outs_app. cbn [pipes_of flat_map List.app outs map]. fold (pipes_of aps). fold (outs n2).
        rewrite <- !app_assoc. apply Permutation_app; [exact HP1|]. etransitivity; [apply Permutation_sym, Permutation_middle|]. cbn [List.app]. now apply perm_skip.
  Qed.
End Build.

Lemma choose {A} (l : list A) (P : nat -> A -> nat -> Prop) : (forall i x, nth_error l i = Some x -> exists c, P i x c) -> exists f, forall i x, nth_error l i = Some x -> P i x (f i).
Proof.
  revert P. induction l as [|a l IH]; intros P X.
  - exists (fun _ => 0). intros [|i] x E; discriminate.
  - destruct (X 0 a eq_refl) as (c & Hc). destruct (IH (fun i => P (S i))) as (f & F); [intros i x E; now apply (X (S i))|].
    exists (fun i => match i with 0 => c | S j => f j end). intros [|i] x E; cbn in E; [injection E as <-; exact Hc|now apply F].
Qed.
Lemma flat_map_once {A B} (f : A -> list B) l : NoDup (flat_map f l) -> forall i j x y b, nth_error l i = Some x -> nth_error l j = Some y -> In b (f x) -> In b (f y) -> i = j.
Proof.
  induction l as [|a l IH]; intros Nd i j x y b Ex Ey Hx Hy; [destruct i; discriminate|]. cbn in Nd. apply NoDup_app_inv in Nd as (_ & N2 & N3).
  assert (In2 : forall k z, nth_error l k = Some z -> In b (f z) -> In b (flat_map f l)) by (intros k z Ez Hz; apply in_flat_map; exists z; split; [eapply nth_error_In; eauto|exact Hz]).
  destruct i as [|i], j as [|j]; cbn in Ex, Ey.
  - reflexivity.
  - injection Ex as ->. exfalso. eapply N3; eauto.
  - injection Ey as ->. exfalso. eapply N3; eauto.
  - f_equal. eapply IH; eauto.
Qed.
Lemma flat_map_within {A B} (f : A -> list B) l : NoDup (flat_map f l) -> forall x, In x l -> NoDup (f x).
Proof.
  induction l as [|a l IH]; intros Nd x; [intros []|]. cbn in Nd. apply NoDup_app_inv in Nd as (N1 & N2 & _). intros [->|X]; auto.
Qed.
Lemma pipes_of_in l k : In (OPipeR k) (pipes_of l) <-> exists a, nth_error l a = Some (Some k).
Proof.
  unfold pipes_of. rewrite in_flat_map. split.
  - intros (x & X & Y). apply In_nth_error in X as (a & Ea). exists a. destruct x as [k'|]; [|destruct Y]. destruct Y as [Y|[]]. now injection Y as ->.
  - intros (a & Ea). exists (Some k). split; [eapply nth_error_In; eauto|now left].
Qed.
Lemma pipes_of_pipes l o : In o (pipes_of l) -> exists k, o = OPipeR k.
Proof. unfold pipes_of. rewrite in_flat_map. intros ([k|] & _ & Y); [destruct Y as [<-|[]]; eauto|destruct Y]. Qed.
Lemma pipes_of_once l : NoDup (pipes_of l) -> forall a b k, nth_error l a = Some (Some k) -> nth_error l b = Some (Some k) -> a = b.
Proof. intros Nd a b k Ea Eb. eapply (flat_map_once _ l Nd a b _ _ (OPipeR k)); eauto; now left. Qed.

(** The numbers of /dev/fd arguments are descriptors of the process. *)
Lemma Forall2_arg_keys ws argv n : Forall2 arg_ok ws argv -> In n (arg_fds argv) -> dget (combine (arg_fds argv) (arg_ofds ws)) n <> None.
Proof.
  intros F. induction F as [|w a ws argv A F IH]; cbn; [intros []|]. destruct w as [x|o], a as [y|m]; cbn in *; try contradiction; [exact IH|].
  intros [->|X]; [rewrite Nat.eqb_refl; discriminate|]. destruct (Nat.eqb n m); [discriminate|auto].
Qed.
Lemma start_numbers L pf p s s' ret its : refers (s_tab s) 0 <> None -> refers (s_tab s) 1 <> None -> tget (s_tab s) 2 <> None ->
  clean (can_open L) INone true p -> start L pf true p s = (s', Ok (ret, its)) ->
  forall rs t argv, In (IProc rs t argv) its -> forall n, In n (arg_numbers argv) -> n < find_free_fd rs.
Proof.
  intros A0 A1 A2 Hc Es. destruct (refers (s_tab s) 0) as [o0|] eqn:E0; [|congruence]. destruct (refers (s_tab s) 1) as [o1|] eqn:E1; [|congruence].
  rewrite start_is in Es. pose proof (run_hp L pf p INone true s _ _ (Pre_top L pf _ _ _ true E0 E1 A2) Hc) as X. unfold hp in X. rewrite Es in X.
  destruct X as (rs' & _ & _ & _ & _ & _ & _ & Hit & _). cbn [snd] in Hit. intros rs t argv Hin n Hn.
  assert (P : exists io ws, RunMain.proc_ok L io ws rs t argv).
  { clear -Hit Hin. induction Hit as [|lf it ls its Hi Hl IH]; [destruct Hin|]. destruct Hin as [->|Hin]; [|auto]. destruct lf as [io ws|]; [|destruct Hi]. now exists io, ws. }
  destruct P as (io & ws & Hw & _ & Hao & _ & _ & Hseen & _).
  assert (S : seen rs t n <> None) by (rewrite Hseen; pose proof (Forall2_arg_keys ws argv n Hao Hn) as D; destruct (dget _ n); [discriminate|congruence]).
  unfold seen in S. destruct (dget rs n) as [r|] eqn:Er; [|congruence]. destruct (wf_fd rs n r Hw Er) as [_ Efd]. rewrite <- Efd.
  apply (proj1 (proj2 (find_free_fd_above rs)) n r). now apply dget_In.
Qed.
Lemma evals_clean R can : (forall p i ps out oks, evals R p i ps out oks -> forall k, clean can k true p) /\
  (forall args i ps outs oks, evals_args R args i ps outs oks -> clean can INone true (PCmd args)).
Proof.
  apply evals_both; cbn; auto.
Qed.

(** A process of the network as it was started. *)
Definition item_is (L : limits) (logfd maxfd : nat) (it : item) (nd : gnode) : Prop :=
  exists rs t argv, it = IProc rs t argv /\
    let see := program_fd L logfd maxfd rs t in
    see 0 = Some (g_in nd) /\ see 1 = Some (OPipeW (g_out nd)) /\ (exists k, see 2 = Some (OTmp k)) /\
    (forall m, m < maxfd -> m <> logfd -> 2 < m -> ~ In m (arg_numbers argv) -> see m = None) /\
    Forall2 (fun a w => match a with Some k => exists m, w = DevFd m /\ 2 < m /\ m < maxfd /\ m <> logfd /\ see m = Some (OPipeR k) | None => exists y, w = Word y end) (g_args nd) argv.

Section NTop.
  Variable L : limits.
  Variable pf : ofd -> bool.
  Variables logfd maxfd : nat.
  Variable p : pl.
  Variables s s' : st.
  Variable its : list item.
  Variable x : nat.
  Hypothesis HS : started L pf logfd maxfd p s s' its x.
  Variable R : asking.
  Variable T : Prop.
  Hypothesis HT : T -> forall q i o, R q i o -> reads_everything q i o.
  Variable i : input.
  Variables inp out : list N.
  Variable progs : list mprog.
  Variable oks : list bool.
  Hypothesis HE : evals R p i progs out oks.
  Hypothesis HI : shell_input i inp.

  Lemma ntop_facts : exists o0 nodes lst,
    (is_end o0 -> pipe_no o0 < s_np s) /\
    chain_ok R o0 inp (i = Ended) [] (nodes ++ [lst]) /\ map g_prog (nodes ++ [lst]) = progs /\ map g_ok (nodes ++ [lst]) = oks /\
    NoDup (map g_out (nodes ++ [lst])) /\ Forall (fun nd => s_np s <= g_out nd) (nodes ++ [lst]) /\ g_bytes lst = out /\
    Permutation (flat_map sources (nodes ++ [lst])) (outs nodes ++ extern i o0) /\
    Forall2 (item_is L logfd maxfd) its (nodes ++ [lst]) /\
    refers (s_tab s') x = Some (OPipeR (g_out lst)) /\ (forall m, m <> x -> tget (s_tab s') m = tget (s_tab s) m).
  Proof.
    destruct HS as (A0 & A1 & A2 & Old & (ret & Es & Ec) & Hlog & Hmax & Hroom).
    pose proof (proj1 (evals_clean R (can_open L)) _ _ _ _ _ HE INone) as Cl.
    pose proof (start_numbers L pf p s s' ret its A0 A1 A2 Cl Es) as Num.
    destruct (refers (s_tab s) 0) as [o0|] eqn:E0; [|congruence]. destruct (refers (s_tab s) 1) as [o1|] eqn:E1; [|congruence].
    pose proof (start_correct L pf true p s o0 o1 logfd maxfd E0 E1 A2 Cl) as SC. rewrite Es in SC. cbn zeta in SC.
    destruct SC as (Con & (x' & k & Ex & Ek & Rx) & _ & _ & Same). rewrite Ec in Ex. injection Ex as <-.
    destruct (proj1 (build R o0 inp (i = Ended)) p i progs out oks HE [] o0 WTmp (s_np s) (s_nt s)) as (nodes & lst & (B1 & B2 & B3 & B4 & B5 & B6 & B7) & Ho & Hb & HP).
    { now left. }
    { now left. }
    { destruct HI as [->|[-> _]]; cbn; auto. }
    change (e3 o0 WTmp) with (top_env o0 o1 true) in *. rewrite Ek in Ho. injection Ho as ->.
    exists o0, nodes, lst. split; [exact (Old 0 o0 E0)|]. repeat (split; [assumption|]). split; [eapply Forall_impl; [|exact B6]; cbn; intros; lia|]. split; [exact Hb|]. split; [exact HP|].
    assert (Its : Forall2 (item_is L logfd maxfd) its (nodes ++ [lst])).
    { assert (Hroom' : forall rs t argv, In (IProc rs t argv) its -> room L logfd rs t /\ find_free_fd rs < maxfd /\ forall n, In n (arg_numbers argv) -> n < maxfd /\ n <> logfd).
      { intros rs t argv Hin. destruct (Hroom rs t argv Hin) as [Ro Fr]. split; [exact Ro|]. split; [exact Fr|]. intros n Hn. specialize (Num rs t argv Hin n Hn).
        destruct Ro as (_ & Ro & _). lia. }
      clear -Con B1 Hroom' Hlog Hmax. revert its Con Hroom'. induction B1 as [|lf nd ls nds Hl _ IH]; intros its Con Hroom'; inversion Con as [|? it ? its' C1 C2]; subst; constructor.
      - destruct Hl as (io & ws & t2 & -> & I0 & I1 & I2 & I3 & Wa). destruct it as [rs t argv|]; [|destruct C1].
        destruct (Hroom' rs t argv (or_introl eq_refl)) as (Ro & Fr & Nu). destruct (C1 Ro Fr) as (_ & Nd & Ac & Io).
        exists rs, t, argv. split; [reflexivity|]. cbv zeta.
        assert (Lo : forall n, In n (arg_numbers argv) -> 2 < n).
        { clear -Ac. intros n. induction Ac as [|w a ws argv A _ IH]; cbn; [intros []|]. destruct w as [y|o], a as [z|m]; cbn in *; try contradiction; [exact IH|]. intros [<-|X]; [apply A|auto]. }
        assert (Lo' : forall n, n <= 2 -> ~ In n (arg_numbers argv)) by (intros n Hn X; specialize (Lo n X); lia).
        rewrite !Io by (try apply Lo'; lia). split; [exact I0|]. split; [exact I1|]. split; [now exists t2|]. split; [intros m M1 M2 M3 M4; rewrite Io by assumption; now apply I3|].
        clear -Ac Wa Nu. revert argv Ac Nu. induction Wa as [|w a ws aps W1 _ IH]; intros argv Ac Nu; inversion Ac as [|? aw ? argv' A1 A2]; subst; constructor.
        + destruct a as [k|]; cbn in W1.
          * subst w. destruct aw as [|m]; cbn in A1; [contradiction|]. destruct A1 as [A1 A1']. destruct (Nu m (or_introl eq_refl)) as [M1 M2]. now exists m.
          * destruct W1 as (y & ->). destruct aw as [z|]; cbn in A1; [|contradiction]. now exists z.
        + apply IH; [exact A2|]. intros n Hn. apply Nu. cbn. apply in_or_app. now right.
      - apply IH; [exact C2|]. intros rs t argv Hin. apply (Hroom' rs t argv). now right. }
    split; [exact Its|]. split; [exact Rx|]. intros m Hm. apply Same. rewrite Ec. intros [X|X]; [congruence|]. revert X.
    assert (Nil : function_fds its = []); [|rewrite Nil; intros []].
    clear -Its. induction Its as [|it nd l l' (rs & t & argv & -> & _) _ IH]; [reflexivity|]. exact IH.
  Qed.
End NTop.

Lemma F2_len {A B} (P : A -> B -> Prop) l l' : Forall2 P l l' -> List.length l = List.length l'.
Proof. induction 1; cbn; lia. Qed.
Lemma F2_l {A B} (P : A -> B -> Prop) l l' : Forall2 P l l' -> forall i x, nth_error l i = Some x -> exists y, nth_error l' i = Some y /\ P x y.
Proof. induction 1 as [|a b l l' A1 _ IH]; intros [|i] x E; cbn in *; try discriminate; [injection E as <-; eauto|eauto]. Qed.
Lemma F2_r {A B} (P : A -> B -> Prop) l l' : Forall2 P l l' -> forall i y, nth_error l' i = Some y -> exists x, nth_error l i = Some x /\ P x y.
Proof. induction 1 as [|a b l l' A1 _ IH]; intros [|i] x E; cbn in *; try discriminate; [injection E as <-; eauto|eauto]. Qed.

Section Nodes.
  Variable L : limits.
  Variables logfd maxfd : nat.
  Variables s s' : st.
  Variable its : list item.
  Variable x : nat.
  Variable R : asking.
  Variable T : Prop.
  Hypothesis HT : T -> forall q i o, R q i o -> reads_everything q i o.
  Variable i0 : input.
  Variables inp out : list N.
  Variable progs : list mprog.
  Variable oks : list bool.
  Hypothesis HI : shell_input i0 inp.
  Hypothesis Hlog : 2 < logfd.
  Hypothesis Hmax : 2 < maxfd.
  Hypothesis Old : forall n o, refers (s_tab s) n = Some o -> is_end o -> pipe_no o < s_np s.
  Variable o0 : ofd.
  Variable nodes : list gnode.
  Variable lst : gnode.
  Notation all := (nodes ++ [lst]).
  Hypothesis F1 : is_end o0 -> pipe_no o0 < s_np s.
  Hypothesis F2 : chain_ok R o0 inp (i0 = Ended) [] all.
  Hypothesis F3 : map g_prog all = progs.
  Hypothesis F4 : map g_ok all = oks.
  Hypothesis F5 : NoDup (map g_out all).
  Hypothesis F6 : Forall (fun nd => s_np s <= g_out nd) all.
  Hypothesis F7 : g_bytes lst = out.
  Hypothesis F8 : Permutation (flat_map sources all) (outs nodes ++ extern i0 o0).
  Hypothesis F9 : Forall2 (item_is L logfd maxfd) its all.
  Hypothesis F10 : refers (s_tab s') x = Some (OPipeR (g_out lst)).
  Hypothesis F11 : forall m, m <> x -> tget (s_tab s') m = tget (s_tab s) m.
  Notation n := (List.length nodes).
  Notation nd k := (nth k all lst).
  Definition npw (k : nat) : nat := g_out (nd k).
  Definition nal (k : nat) (c : chan) : bool := (k <=? n) && is_some (files (g_own (nd k)) (g_outs (nd k)) c).
  Notation sees := (map (item_sees L logfd maxfd) its).
  Notation see k := (nth k sees (fun _ => None)).
  Notation argvs := (map item_argv its).
  Notation fds := (proc_fds logfd maxfd).

  Lemma all_len : List.length all = S n.
  Proof. rewrite app_length. cbn. lia. Qed.
  Lemma its_len : List.length its = S n.
  Proof. rewrite (F2_len _ _ _ F9). apply all_len. Qed.
  Lemma nd_nth k : k <= n -> nth_error all k = Some (nd k).
  Proof. intros Hk. apply nth_error_nth'. rewrite all_len. lia. Qed.
  Lemma nd_in k : k <= n -> In (nd k) all.
  Proof. intros Hk. apply nth_In. rewrite all_len. lia. Qed.
  Lemma nd_last : nd n = lst.
  Proof. rewrite app_nth2 by lia. now rewrite Nat.sub_diag. Qed.
  Lemma in_nd y : In y all -> exists k, k <= n /\ nd k = y.
  Proof. intros X. apply (In_nth _ _ lst) in X as (k & Hk & E). rewrite all_len in Hk. exists k. split; [lia|exact E]. Qed.
  Lemma npw_le k : k <= n -> s_np s <= npw k.
  Proof. intros Hk. rewrite Forall_forall in F6. apply F6. now apply nd_in. Qed.
  Lemma npw_inj j k : j <= n -> k <= n -> npw j = npw k -> j = k.
  Proof.
    intros Hj Hk E. rewrite (NoDup_nth (map g_out all) (g_out lst)) in F5. rewrite map_length, all_len in F5. apply F5; try lia. rewrite !map_nth. exact E.
  Qed.
  Lemma nd_ok k : k <= n -> node_ok R o0 inp (i0 = Ended) (firstn k all) (nd k).
  Proof. intros Hk. exact (chain_ok_nth R o0 inp _ all [] k _ F2 (nd_nth k Hk)). Qed.
  Lemma before k y : k <= n -> In y (firstn k all) -> exists j, j < k /\ nd j = y.
  Proof.
    intros Hk X. apply (In_nth _ _ lst) in X as (j & Hj & E). rewrite firstn_length, all_len in Hj. exists j. split; [lia|]. rewrite <- E.
    assert (Hjk : j < k) by lia. clear -Hjk. revert k Hjk. generalize all. intros l. revert j. induction l as [|a l IH]; intros [|j] [|k] Hjk; cbn; try lia; auto. apply IH. lia.
  Qed.
  Lemma it_is k : k <= n -> exists rs t argv, nth_error its k = Some (IProc rs t argv) /\ item_is L logfd maxfd (IProc rs t argv) (nd k) /\ see k = program_fd L logfd maxfd rs t /\ nth k argvs [] = argv.
  Proof.
    intros Hk. assert (E : exists it, nth_error its k = Some it) by (destruct (nth_error its k) eqn:E; [eauto|]; apply nth_error_None in E; rewrite its_len in E; lia).
    destruct E as (it & E). assert (X : item_is L logfd maxfd it (nd k)).
    { destruct (F2_l _ _ _ F9 _ _ E) as (y & Ey & X). rewrite (nd_nth k Hk) in Ey. injection Ey as <-. exact X. }
    destruct X as (rs & t & argv & -> & X). exists rs, t, argv. split; [exact E|]. split; [exists rs, t, argv; now split|]. split.
    - rewrite (nth_indep _ _ (item_sees L logfd maxfd (IProc rs t argv))) by (rewrite map_length, its_len; lia). rewrite map_nth. now rewrite (nth_error_nth _ _ _ E).
    - rewrite (nth_indep _ _ (item_argv (IProc rs t argv))) by (rewrite map_length, its_len; lia). rewrite map_nth. now rewrite (nth_error_nth _ _ _ E).
  Qed.
  Lemma o0_not_r k : s_np s <= k -> o0 <> OPipeR k.
  Proof. intros Hk E. subst o0. specialize (F1 I). cbn in F1. lia. Qed.
  Lemma o0_not_w k : s_np s <= k -> o0 <> OPipeW k.
  Proof. intros Hk E. subst o0. specialize (F1 I). cbn in F1. lia. Qed.
  Lemma in_fds m : In m fds <-> m < maxfd /\ m <> logfd.
  Proof. unfold proc_fds. rewrite filter_In, in_seq, negb_true_iff, Nat.eqb_neq. split; intros [A B]; split; auto; lia. Qed.
  (** What process [k] has on its descriptors. *)
  Lemma see_cases k m o : k <= n -> In m fds -> see k m = Some o ->
    o = g_in (nd k) \/ o = OPipeW (npw k) \/ (exists t, o = OTmp t) \/ exists a, nth_error (g_args (nd k)) a <> None /\ exists q, nth_error (g_args (nd k)) a = Some (Some q) /\ o = OPipeR q.
  Proof.
    intros Hk Hm. destruct (it_is k Hk) as (rs & t & argv & _ & (rs' & t' & argv' & E & X) & -> & _). injection E as <- <- <-. cbv zeta in X. destruct X as (S0 & S1 & (t2 & S2) & S3 & S4).
    apply in_fds in Hm as [M1 M2]. intros Es. destruct m as [|[|[|m] ] ].
    - left. congruence.
    - right. left. unfold npw. congruence.
    - right. right. left. exists t2. congruence.
    - destruct (in_dec Nat.eq_dec (S (S (S m))) (arg_numbers argv)) as [Hin|Hn]; [|rewrite S3 in Es by (auto; lia); discriminate].
      right. right. right. clear -S4 Hin Es. induction S4 as [|a w l l' A _ IH]; cbn in Hin; [destruct Hin|]. apply in_app_iff in Hin as [Hin|Hin].
      + destruct a as [q|]; [|destruct A as (y & ->); destruct Hin]. destruct A as (m' & -> & _ & _ & _ & A). destruct Hin as [->|[]]. exists 0. cbn. split; [discriminate|]. exists q. split; [reflexivity|congruence].
      + destruct (IH Hin) as (a' & B). exists (S a'). exact B.
  Qed.
  Lemma arg_pre k a q : k <= n -> nth_error (g_args (nd k)) a = Some (Some q) -> exists j bs, j < k /\ q = npw j /\ nth_error (g_outs (nd k)) a = Some (Some bs) /\ g_bytes (nd j) = bs.
  Proof.
    intros Hk E. destruct (nd_ok k Hk) as (_ & _ & A & _). pose proof (F2_l _ _ _ A _ _ E) as (o & Eo & B). destruct o as [bs|]; cbn in B; [|destruct B].
    destruct B as (y & Y & <- & <-). destruct (before k y Hk Y) as (j & Hj & <-). exists j, (g_bytes (nd j)). repeat split; auto.
  Qed.

  Lemma chan_std k : k <= n -> chan_ofd sees argvs k Stdin = Some (g_in (nd k)).
  Proof.
    intros Hk. destruct (it_is k Hk) as (rs & t & argv & _ & (rs' & t' & argv' & E & X) & Es & _). injection E as <- <- <-. unfold chan_ofd. cbn [chan_fd]. rewrite Es. apply X.
  Qed.
  Lemma chan_arg k a q : k <= n -> nth_error (g_args (nd k)) a = Some (Some q) -> chan_ofd sees argvs k (Argument a) = Some (OPipeR q) /\ exists m, chan_fd (nth k argvs []) (Argument a) = Some m /\ In m fds /\ see k m <> None.
  Proof.
    intros Hk E0. destruct (it_is k Hk) as (rs & t & argv & _ & (rs' & t' & argv' & E & X) & Es & Ea). injection E as <- <- <-. cbv zeta in X. destruct X as (_ & _ & _ & _ & S4).
    destruct (F2_l _ _ _ S4 _ _ E0) as (w & Ew & m & -> & M0 & M1 & M2 & M3). unfold chan_ofd. rewrite Ea, Es. cbn [chan_fd]. rewrite Ew. split; [exact M3|]. exists m. split; [reflexivity|].
    split; [now apply in_fds|congruence].
  Qed.
  Lemma nal_arg k a : nal k (Argument a) = true -> k <= n /\ exists q, nth_error (g_args (nd k)) a = Some (Some q).
  Proof.
    unfold nal. intros X. apply andb_true_iff in X as [X Y]. apply Nat.leb_le in X. split; [exact X|]. cbn in Y. destruct (nth_error (g_outs (nd k)) a) as [o|] eqn:E; [|discriminate].
    destruct o as [bs|]; [|discriminate]. destruct (nd_ok k X) as (_ & _ & A & _). destruct (F2_r _ _ _ A _ _ E) as (q & Eq & B). destruct q as [q|]; [|destruct B]. now exists q.
  Qed.
  Lemma arg_nal k a q : k <= n -> nth_error (g_args (nd k)) a = Some (Some q) -> nal k (Argument a) = true.
  Proof.
    intros Hk E. destruct (arg_pre k a q Hk E) as (j & bs & _ & _ & Eo & _). unfold nal. apply andb_true_iff. split; [now apply Nat.leb_le|]. cbn. now rewrite Eo.
  Qed.
  Notation fromN := (from (s_np s) sees argvs).
  Lemma from_arg k a q : k <= n -> nth_error (g_args (nd k)) a = Some (Some q) -> fromN k (Argument a) = Some q.
  Proof.
    intros Hk E. destruct (arg_pre k a q Hk E) as (j & bs & Hj & -> & _). unfold from. rewrite (proj1 (chan_arg k a _ Hk E)).
    unfold ours. destruct (Nat.leb_spec (s_np s) (npw j)); [reflexivity|]. pose proof (npw_le j ltac:(lia)). lia.
  Qed.
  Lemma o0_from : match o0 with OPipeR q => if ours (s_np s) q then Some q else None | _ => None end = None.
  Proof.
    pose proof o0_not_r as Z. clear -Z. destruct o0 as [f|q|q|f fl|t]; try reflexivity. unfold ours. destruct (Nat.leb_spec (s_np s) q) as [Y|Y]; [|reflexivity].
    now destruct (Z q Y).
  Qed.
  (** The standard input of a process that may read it. *)
  Lemma std_cases k : nal k Stdin = true -> k <= n /\
    ((g_own (nd k) = Ended /\ i0 = Ended /\ fromN k Stdin = None) \/
     (exists bs, g_own (nd k) = Bytes bs /\ g_in (nd k) = o0 /\ bs = inp /\ fromN k Stdin = None) \/
     (exists j, j < k /\ g_own (nd k) = Bytes (g_bytes (nd j)) /\ g_in (nd k) = OPipeR (npw j) /\ fromN k Stdin = Some (npw j))).
  Proof.
    unfold nal. intros X. apply andb_true_iff in X as [X Y]. apply Nat.leb_le in X. split; [exact X|].
    assert (No : g_in (nd k) = o0 -> fromN k Stdin = None).
    { intros E. unfold from. rewrite (chan_std k X), E. exact o0_from. }
    destruct (nd_ok k X) as (_ & S & _). destruct (g_own (nd k)) as [| |bs] eqn:Eo; cbn in Y, S; [discriminate| |].
    - left. destruct S as [S1 S2]. auto.
    - right. destruct S as [[S1 S2]|(y & Yi & S1 & S2)]; [left; exists bs; auto|right]. destruct (before k y X Yi) as (j & Hj & <-). exists j. split; [exact Hj|]. split; [now rewrite S2|].
      split; [exact S1|]. unfold from. rewrite (chan_std k X), S1. unfold ours. fold (npw j). destruct (Nat.leb_spec (s_np s) (npw j)); [reflexivity|]. pose proof (npw_le j ltac:(lia)). lia.
  Qed.
  Lemma sources_nodup : NoDup (flat_map sources all).
  Proof.
    eapply Permutation_NoDup; [apply Permutation_sym; exact F8|]. apply NoDup_app_intro.
    - assert (N0 : NoDup (map g_out nodes)) by (rewrite map_app in F5; now apply NoDup_app_inv in F5). unfold outs. rewrite <- map_map. apply FinFun.Injective_map_NoDup; [|exact N0]. intros a b E. now injection E.
    - clear. unfold extern. destruct i0; repeat constructor; intros [].
    - intros y Y Z. assert (y = o0) as -> by (clear -Z; unfold extern in Z; destruct i0; cbn in Z; intuition congruence). unfold outs in Y. apply in_map_iff in Y as (z & E & Hz). symmetry in E. apply o0_not_r in E; [exact E|].
      rewrite Forall_forall in F6. apply F6. apply in_or_app. now left.
  Qed.
  (** What process [k] may read from pipe [q]. *)
  Lemma from_source k c q : nal k c = true -> fromN k c = Some q -> In (OPipeR q) (sources (nd k)) /\
    ((exists a, c = Argument a /\ nth_error (g_args (nd k)) a = Some (Some q)) \/ (c = Stdin /\ In (OPipeR q) (extern (g_own (nd k)) (g_in (nd k))))).
  Proof.
    intros A E. unfold sources. destruct c as [|a].
    - destruct (std_cases k A) as (Hk & [(_ & _ & X)|[(bs & _ & _ & _ & X)|(j & Hj & Eo & Ei & X)]]); try congruence. rewrite X in E. injection E as <-.
      rewrite Eo, Ei. cbn [extern]. split; [apply in_or_app; right; now left|]. right. split; [reflexivity|now left].
    - destruct (nal_arg k a A) as (Hk & q' & Eq). rewrite (from_arg k a q' Hk Eq) in E. injection E as ->. split; [|left; eauto]. apply in_or_app. left. apply pipes_of_in. now exists a.
  Qed.
  Lemma g_uniq k c k' c' q : nal k c = true -> nal k' c' = true -> fromN k c = Some q -> fromN k' c' = Some q -> k = k' /\ c = c'.
  Proof.
    intros A A' E E'. destruct (from_source k c q A E) as [X X2], (from_source k' c' q A' E') as [Y Y2].
    assert (Hk : k <= n) by (unfold nal in A; apply andb_true_iff in A as [A _]; now apply Nat.leb_le).
    assert (Hk' : k' <= n) by (unfold nal in A'; apply andb_true_iff in A' as [A' _]; now apply Nat.leb_le).
    pose proof (flat_map_once _ _ sources_nodup k k' _ _ _ (nd_nth k Hk) (nd_nth k' Hk') X Y) as <-. split; [reflexivity|].
    pose proof (flat_map_within _ _ sources_nodup _ (nd_in k Hk)) as Nd. apply NoDup_app_inv in Nd as (N1 & _ & N3).
    destruct X2 as [(a & -> & Ea)|[-> Ea]], Y2 as [(b & -> & Eb)|[-> Eb]].
    - f_equal. eapply pipes_of_once; eauto.
    - exfalso. apply (N3 (OPipeR q)); [apply pipes_of_in; eauto|exact Eb].
    - exfalso. apply (N3 (OPipeR q)); [apply pipes_of_in; eauto|exact Ea].
    - reflexivity.
  Qed.
  Lemma g_read j : j < n -> exists k c, nal k c = true /\ fromN k c = Some (npw j).
  Proof.
    intros Hj. assert (X : In (OPipeR (npw j)) (flat_map sources all)).
    { eapply Permutation_in; [apply Permutation_sym; exact F8|]. apply in_or_app. left. unfold outs. apply in_map_iff. exists (nd j). split; [reflexivity|]. rewrite app_nth1 by exact Hj. now apply nth_In. }
    apply in_flat_map in X as (y & Y & X). destruct (in_nd y Y) as (k & Hk & <-). apply in_app_iff in X as [X|X].
    - apply pipes_of_in in X as (a & Ea). exists k, (Argument a). split; [eapply arg_nal; eauto|eapply from_arg; eauto].
    - exists k, Stdin. assert (A : nal k Stdin = true).
      { unfold nal. apply andb_true_iff. split; [now apply Nat.leb_le|]. unfold extern in X. destruct (g_own (nd k)); [destruct X|destruct X|reflexivity]. }
      split; [exact A|]. destruct (std_cases k A) as (_ & [(E & _)|[(bs & Eo & Ei & _)|(j' & Hj' & Eo & Ei & E)]]).
      + rewrite E in X. destruct X.
      + rewrite Eo, Ei in X. destruct X as [X|[]]. exfalso. apply (o0_not_r (npw j)); [apply npw_le; lia|exact X].
      + rewrite Eo, Ei in X. destruct X as [X|[]]. rewrite E. now injection X as ->.
  Qed.
  Lemma g_ext : i0 = Ended \/ forall k c k' c', nal k c = true -> nal k' c' = true -> fromN k c = None -> fromN k' c' = None -> k = k' /\ c = c'.
  Proof.
    destruct HI as [E|[E _]]; [right|now left].
    assert (C : forall k c, nal k c = true -> fromN k c = None -> k <= n /\ c = Stdin /\ In o0 (sources (nd k))).
    { intros k c A X. destruct c as [|a].
      - destruct (std_cases k A) as (Hk & [(_ & Z & _)|[(bs & Eo & Ei & _)|(j & Hj & Eo & Ei & Z)]]); try congruence. split; [exact Hk|]. split; [reflexivity|].
        unfold sources. rewrite Eo, Ei. apply in_or_app. right. now left.
      - destruct (nal_arg k a A) as (Hk & q & Eq). rewrite (from_arg k a q Hk Eq) in X. discriminate. }
    intros k c k' c' A A' X X'. destruct (C k c A X) as (Hk & -> & Y), (C k' c' A' X') as (Hk' & -> & Y'). split; [|reflexivity].
    exact (flat_map_once _ _ sources_nodup k k' _ _ _ (nd_nth k Hk) (nd_nth k' Hk') Y Y').
  Qed.
  Lemma g_w k m q : k <= n -> In m fds -> s_np s <= q -> see k m = Some (OPipeW q) -> q = npw k.
  Proof.
    intros Hk Hm Hq E. destruct (see_cases k m _ Hk Hm E) as [X|[X|[(t & X)|(a & _ & q' & _ & X)]]]; try discriminate; [|now injection X].
    destruct (nd_ok k Hk) as ([Y|(y & _ & Y)] & _); [|congruence]. exfalso. apply (o0_not_w q Hq). congruence.
  Qed.
  Lemma g_r k m q : k <= n -> In m fds -> s_np s <= q -> see k m = Some (OPipeR q) -> exists j, j < k /\ q = npw j.
  Proof.
    intros Hk Hm Hq E. destruct (see_cases k m _ Hk Hm E) as [X|[X|[(t & X)|(a & _ & q' & Ea & X)]]]; try discriminate.
    - destruct (nd_ok k Hk) as ([Y|(y & Hy & Y)] & _); [exfalso; apply (o0_not_r q Hq); congruence|]. destruct (before k y Hk Hy) as (j & Hj & <-). exists j. split; [exact Hj|]. rewrite Y in X. now injection X.
    - injection X as ->. destruct (arg_pre k a q' Hk Ea) as (j & bs & Hj & -> & _). eauto.
  Qed.
  Lemma g_al k c : nal k c = true -> k <= n /\ exists m, chan_fd (nth k argvs []) c = Some m /\ In m fds /\ see k m <> None.
  Proof.
    intros A. destruct c as [|a].
    - destruct (std_cases k A) as (Hk & _). split; [exact Hk|]. exists 0. split; [reflexivity|]. split; [apply in_fds; lia|]. pose proof (chan_std k Hk) as X. unfold chan_ofd in X. cbn in X. congruence.
    - destruct (nal_arg k a A) as (Hk & q & Eq). split; [exact Hk|]. apply (chan_arg k a q Hk Eq).
  Qed.
  Lemma g_out1 k : k <= n -> see k 1 = Some (OPipeW (npw k)).
  Proof. intros Hk. destruct (it_is k Hk) as (rs & t & argv & _ & (rs' & t' & argv' & E & X) & Es & _). injection E as <- <- <-. rewrite Es. apply X. Qed.
  Lemma g_shell m o : m <> x -> refers (s_tab s') m = Some o -> is_end o -> pipe_no o < s_np s.
  Proof. intros Hm Er He. apply (Old m o); [|exact He]. unfold refers in *. now rewrite <- (F11 m Hm). Qed.
  Lemma g_sw m q : refers (s_tab s') m = Some (OPipeW q) -> q < s_np s.
  Proof. intros E. destruct (Nat.eq_dec m x) as [->|Ne]; [congruence|]. exact (g_shell m _ Ne E I). Qed.
  Lemma g_sr m q : refers (s_tab s') m = Some (OPipeR q) -> s_np s <= q -> m = x.
  Proof. intros E Hq. destruct (Nat.eq_dec m x) as [->|Ne]; [reflexivity|]. pose proof (g_shell m _ Ne E I) as X. cbn in X. lia. Qed.
  Lemma g_x : refers (s_tab s') x = Some (OPipeR (npw n)).
  Proof. unfold npw. now rewrite nd_last. Qed.

  (** What is written into each pipe. *)
  Definition gws (q : nat) : list N := match find (fun y => Nat.eqb (g_out y) q) all with Some y => g_bytes y | None => [] end.
  Lemma gws_is k : k <= n -> gws (npw k) = g_bytes (nd k).
  Proof.
    intros Hk. unfold gws. destruct (find _ _) as [y|] eqn:E.
    - apply find_some in E as [Y E]. apply Nat.eqb_eq in E. destruct (in_nd y Y) as (j & Hj & <-). fold (npw j) in E. apply npw_inj in E; auto. now subst.
    - pose proof (find_none _ _ E _ (nd_in k Hk)) as X. cbn in X. unfold npw in X. now rewrite Nat.eqb_refl in X.
  Qed.
  Section Start.
    Variable H : Type.
    Variable h : H.
    Notation feedsN := (feeds H (s_np s) sees argvs n npw nal (m_start H h progs inp) gws).
    Lemma g_feeds k c : k <= n -> feedsN k c = files (g_own (nd k)) (g_outs (nd k)) c.
    Proof.
      intros Hk. unfold feeds. assert (Em : forall q, m_content H (npw n) (m_start H h progs inp) q = []) by (intros q; unfold m_content; cbn; now destruct (Nat.eqb _ _)).
      destruct (nal k c) eqn:A.
      - destruct c as [|a].
        + destruct (std_cases k A) as (_ & [(Eo & Ee & ->)|[(bs & Eo & Ei & -> & ->)|(j & Hj & Eo & Ei & ->)]]); rewrite Eo; cbn.
          * destruct HI as [Z|[_ ->]]; [congruence|reflexivity].
          * reflexivity.
          * rewrite Em. cbn. rewrite gws_is by lia. reflexivity.
        + destruct (nal_arg k a A) as (_ & q & Eq). rewrite (from_arg k a q Hk Eq), Em. destruct (arg_pre k a q Hk Eq) as (j & bs & Hj & -> & Eo & Eb). cbn. rewrite Eo, gws_is by lia. now rewrite Eb.
      - unfold nal in A. destruct (Nat.leb_spec k n); [|lia]. cbn in A. destruct (files _ _ c); [discriminate|reflexivity].
    Qed.
    Lemma g_start : exists cs, forall k q, nth_error progs k = Some q ->
      mdoesn (cs k) q (feedsN k) (gws (npw k)) (nth k oks true) /\
      (T -> exists l, mreads q (feedsN k) l /\ forall c j, nal k c = true -> fromN k c = Some (npw j) -> In c l).
    Proof.
      destruct (choose all (fun k y c => mdoesn c (g_prog y) (files (g_own y) (g_outs y)) (g_bytes y) (g_ok y))) as (cs & Hcs).
      { intros k y E. assert (Hk : k <= n) by (assert (k < List.length all) by (apply nth_error_Some; congruence); rewrite all_len in *; lia).
        pose proof (nd_nth k Hk) as E2. rewrite E in E2. injection E2 as ->. apply mdoes_n. apply (nd_ok k Hk). }
      exists cs. intros k q Eq. rewrite <- F3 in Eq. rewrite nth_error_map in Eq. destruct (nth_error all k) as [y|] eqn:E; [|discriminate]. injection Eq as <-.
      assert (Hk : k <= n) by (assert (k < List.length all) by (apply nth_error_Some; congruence); rewrite all_len in *; lia).
      specialize (Hcs k y E). pose proof (nd_nth k Hk) as E2. rewrite E in E2. injection E2 as Ey. split.
      - rewrite gws_is by exact Hk. rewrite <- F4. rewrite (nth_indep _ true (g_ok lst)) by (rewrite map_length, all_len; lia). rewrite map_nth, <- Ey.
        eapply mdoesn_ext; [exact Hcs|]. intros c. rewrite g_feeds by exact Hk. now rewrite <- Ey.
      - intros t0. destruct (nd_ok k Hk) as (_ & _ & _ & _ & HR). rewrite <- Ey in HR. destruct (HT t0 _ _ _ HR) as (l & M & Ma & Ms). exists l. split.
        + eapply mreads_ext; [exact M|]. intros c. rewrite g_feeds by exact Hk. now rewrite <- Ey.
        + intros c j A Ef. destruct c as [|a].
          * destruct (std_cases k A) as (_ & [(_ & _ & Z)|[(bs & _ & _ & _ & Z)|(j' & _ & Eo & _)]]); try congruence. eapply Ms. rewrite Ey. exact Eo.
          * destruct (nal_arg k a A) as (_ & q & Eqa). destruct (arg_pre k a q Hk Eqa) as (j' & bs & _ & _ & Eo & _). eapply Ma. rewrite Ey. exact Eo.
    Qed.
  End Start.
End Nodes.

Section NRun.
  Variable L : limits.
  Variable pf : ofd -> bool.
  Variables logfd maxfd : nat.
  Variable p : pl.
  Variables s s' : st.
  Variable its : list item.
  Variable x : nat.
  Hypothesis HS : started L pf logfd maxfd p s s' its x.
  Variable R : asking.
  Variable T : Prop.
  Hypothesis HT : T -> forall q i o, R q i o -> reads_everything q i o.
  Variable i : input.
  Variables inp out : list N.
  Variable progs : list mprog.
  Variable oks : list bool.
  Hypothesis HE : evals R p i progs out oks.
  Hypothesis HI : shell_input i inp.
  Hypothesis HC : Forall mcareful progs.
  Variable cap : nat.
  Section Handler.
    Variable H : Type.
    Variable h_wants : H -> bool.
    Variable h_event : H -> bytes -> H * bool.
    Variable h_next h_resume : H -> H * outcome.
    Variable h_open : H -> bool.
    Variable RI : rstate H -> Prop.
    Hypothesis RI_step : forall r l r', RI r -> rstep H h_wants h_event h_next h_resume h_open true r l = Some r' -> RI r'.
    Hypothesis RI_open : forall r, RI r -> h_open (r_h r) = false -> r_wopen r = false.
    Variable h : H.
    Hypothesis RI_start : RI (r_init H h).
    Notation steps := (m_steps H h_wants h_event h_next h_resume h_open (s_np s) cap (proc_fds logfd maxfd) (map (item_sees L logfd maxfd) its) (map item_argv its) (s_tab s') x (caller_pipe (s_tab s') x)).
    Notation pre := (forall r, RI r -> r_pend r <> [] -> exists r', drains H h_wants h_event h_next h_resume h_open r r' /\ List.length (r_pend r') < List.length (r_pend r)).
    Notation fin := (forall r, RI r -> r_pend r = [] -> r_wopen r = false -> exists r', drains H h_wants h_event h_next h_resume h_open r r' /\ r_phase r' = PAtEof).
    Lemma ntop_run : exists bound, forall ls t, steps (m_start H h progs inp) ls = Some t ->
      (exists rest, r_sent (m_rd t) ++ rest = out /\ (r_wopen (m_rd t) = false -> rest = [])) /\
      (exists rl, rsteps H h_wants h_event h_next h_resume h_open true (r_init H h) rl = Some (m_rd t)) /\
      (0 < cap -> pre -> fin -> exists ls' t', steps t ls' = Some t' /\ ended (r_out (m_rd t'))) /\
      ((forall k, nth k (m_procs t) None = None) -> In false oks -> m_ok t = false) /\
      (T -> ~ In false oks -> m_ok t = true) /\
      List.length (filter proc_label ls) <= bound.
    Proof.
      destruct (ntop_facts L pf logfd maxfd p s s' its x HS R i inp out progs oks HE HI) as (o0 & nodes & lst & F1 & F2 & F3 & F4 & F5 & F6 & F7 & F8 & F9 & F10 & F11).
      destruct HS as (_ & _ & _ & Old & _ & Hlog & Hmax & _).
      pose proof (all_len logfd maxfd s Hlog Hmax o0 nodes lst F1) as AL.
      assert (Lp : List.length progs = S (List.length nodes)) by (rewrite <- F3, map_length; exact AL).
      assert (Lo : List.length oks = S (List.length nodes)) by (rewrite <- F4, map_length; exact AL).
      destruct (g_start L logfd maxfd s its R T HT i inp progs oks HI Hlog Hmax o0 nodes lst F1 F2 F3 F4 F5 F6 F8 F9 H h) as (cs & Hcs).
      set (n := List.length nodes) in *. set (pw := npw nodes lst). set (al := nal nodes lst).
      exists (total cs n). intros ls t St.
      assert (Rx : refers (s_tab s') x = Some (OPipeR (pw n))) by exact (g_x logfd maxfd s s' x Hlog Hmax o0 nodes lst F1 F10).
      assert (Ec : caller_pipe (s_tab s') x = pw n) by (unfold caller_pipe; now rewrite Rx). rewrite Ec in *.
      pose proof (npw_inj logfd maxfd s Hlog Hmax o0 nodes lst F1 F5) as Pj. pose proof (npw_le logfd maxfd s Hlog Hmax o0 nodes lst F1 F6) as Pl.
      pose proof (g_w L logfd maxfd s its R i inp Hlog Hmax o0 nodes lst F1 F2 F8 F9) as Pw. pose proof (g_r L logfd maxfd s its R i inp Hlog Hmax o0 nodes lst F1 F2 F8 F9) as Pr.
      pose proof (g_out1 L logfd maxfd s its Hlog Hmax o0 nodes lst F1 F9) as Po. pose proof (g_al L logfd maxfd s its R i inp Hlog Hmax o0 nodes lst F1 F2 F6 F8 F9) as Pa.
      pose proof (g_uniq L logfd maxfd s its R i inp Hlog Hmax o0 nodes lst F1 F2 F5 F6 F8 F9) as Pu.
      pose proof (g_read L logfd maxfd s its R i inp Hlog Hmax o0 nodes lst F1 F2 F6 F8 F9) as Pd.
      pose proof (g_ext L logfd maxfd s its R i inp HI Hlog Hmax o0 nodes lst F1 F2 F5 F6 F8 F9) as Px.
      pose proof (g_sw s s' x Old lst F10 F11) as Psw. pose proof (g_sr logfd maxfd s s' x Hlog Hmax Old o0 F1 F11) as Psr.
      fold n pw al in Pj, Pl, Pw, Pr, Po, Pa, Pu, Pd, Px.
      assert (Sl : List.length (map (item_sees L logfd maxfd) its) = S n) by (rewrite map_length; exact (its_len L logfd maxfd s its Hlog Hmax o0 nodes lst F1 F9)).
      assert (In1 : In 1 (proc_fds logfd maxfd)) by (apply fds_spec; lia).
      assert (I0 : minv H (s_np s) (map (item_sees L logfd maxfd) its) (map item_argv its) n pw al (i = Ended) RI out (fun k => nth k oks true) T (m_start H h progs inp) (gws nodes lst) cs).
      { apply minv_start; auto.
        - unfold pw. rewrite (gws_is logfd maxfd s Hlog Hmax o0 nodes lst F1 F5 n (le_n _)). unfold n. now rewrite (nd_last logfd maxfd s Hlog Hmax o0 nodes lst F1).
        - intros Z. destruct HI as [Z2|[_ Z2]]; [congruence|exact Z2].
        - intros k q Eq. destruct (Hcs k q Eq) as [B1 B2]. split; [exact B1|]. split; [|exact B2]. rewrite Forall_forall in HC. apply HC. eapply nth_error_In; exact Eq. }
      edestruct (minv_steps H h_wants h_event h_next h_resume h_open (s_np s) cap (proc_fds logfd maxfd) (map (item_sees L logfd maxfd) its) (map item_argv its) (s_tab s') x n pw al) as (ws' & cs' & I & Tt & RL); try eassumption.
      pose proof (v_len _ _ _ _ _ _ _ _ _ _ _ _ _ _ _ I) as Lt.
      split; [|split; [exact RL|split; [|split; [|split]]]].
      - exists (ws' (pw n)). split; [apply I|]. rewrite (v_wopen _ _ _ _ _ _ _ _ _ _ _ _ _ _ _ I). unfold m_alive. destruct (nth n (m_procs t) None) eqn:En; [discriminate|].
        intros _. destruct (v_dead _ _ _ _ _ _ _ _ _ _ _ _ _ _ _ I n (le_n _) En) as [X|[X _]]; [exact X|now destruct X].
      - intros Hc D1 D2. eapply m_finishes; eassumption.
      - intros Hd Hf. apply (In_nth _ _ true) in Hf as (k & Hk & Ek). rewrite Lo in Hk. exact (v_status _ _ _ _ _ _ _ _ _ _ _ _ _ _ _ I k ltac:(lia) (Hd k) Ek).
      - intros t0 Nf. apply (v_ok _ _ _ _ _ _ _ _ _ _ _ _ _ _ _ I t0). intros k Hk. destruct (nth k oks true) eqn:Ek; [reflexivity|]. exfalso. apply Nf. rewrite <- Ek. apply nth_In. lia.
      - lia.
    Qed.
  End Handler.
  Definition nverdict {H} (t : nest H) : Prop :=
    (ended (r_out (m_rd t)) -> forall k, nth k (m_procs t) None = None) /\
    (In false oks -> ~ In GStop (r_out (m_rd t))) /\ (T -> ~ In false oks -> ~ In GFailed (r_out (m_rd t))).
  Lemma to_nverdict H (t : nest H) : m_end H t -> ((forall k, nth k (m_procs t) None = None) -> In false oks -> m_ok t = false) ->
    (T -> ~ In false oks -> m_ok t = true) -> nverdict t.
  Proof.
    intros (G0 & G1 & G2) A B. split; [exact G0|]. split.
    - intros Hf X. pose proof (A (G0 (or_introl X)) Hf). specialize (G1 X). congruence.
    - intros t0 Hf X. specialize (B t0 Hf). specialize (G2 X). congruence.
  Qed.
  Lemma nbytes_top : exists bound, forall ls t, nest_bytes L logfd maxfd cap s s' its x (m_start byte_handler byte_init progs inp) ls = Some t ->
    (prefix (List.concat (items_of (r_out (m_rd t)))) out /\
     (ended (r_out (m_rd t)) -> List.concat (items_of (r_out (m_rd t))) = out)) /\
    (0 < cap -> exists ls' t', nest_bytes L logfd maxfd cap s s' its x t ls' = Some t' /\ ended (r_out (m_rd t'))) /\
    nverdict t /\ List.length (filter proc_label ls) <= bound.
  Proof.
    destruct (ntop_run byte_handler byte_wants byte_event byte_next byte_resume bi_open BInv
      (fun r l r' I X => BInv_step true r l r' I X) b_open_w byte_init BInv_start) as (bound & B). exists bound. intros ls t E.
    destruct (B ls t E) as ((rest & R1 & R2) & (rl & RS) & F & V1 & V2 & Fi).
    split; [|split; [exact (fun H0 => F H0 byte_D1 byte_D2)|split; [|exact Fi]]].
    2: { apply to_nverdict; [|exact V1|exact V2]. eapply m_end_steps; [apply m_end_start|exact E]. }
    destruct (bytes_delivered true rl (m_rd t) RS) as [(pp & P) Q]. pose proof (BInv_steps true rl _ _ BInv_start RS) as I. split.
    - exists (pp ++ rest). rewrite app_assoc, <- P. now symmetry.
    - intros X. rewrite (Q X). destruct (b_end _ I X) as [X1 _]. destruct (b_eof _ I X1) as [_ X2]. rewrite (R2 X2) in R1. now rewrite app_nil_r in R1.
  Qed.
  Lemma nlines_top : exists bound, forall ls t, nest_lines L logfd maxfd cap s s' its x (m_start line_handler line_init progs inp) ls = Some t ->
    (forall lines, is_lines out lines -> prefix (items_of (r_out (m_rd t))) lines /\
     (ended (r_out (m_rd t)) -> items_of (r_out (m_rd t)) = lines)) /\
    (0 < cap -> exists ls' t', nest_lines L logfd maxfd cap s s' its x t ls' = Some t' /\ ended (r_out (m_rd t'))) /\
    nverdict t /\ List.length (filter proc_label ls) <= bound.
  Proof.
    destruct (ntop_run line_handler line_wants line_event line_next line_next li_open LInv
      (fun r l r' I X => LInv_step true r l r' I X) l_open_w line_init LInv_start) as (bound & B). exists bound. intros ls t E.
    destruct (B ls t E) as ((rest & R1 & R2) & (rl & RS) & F & V1 & V2 & Fi).
    split; [|split; [exact (fun H0 => F H0 (fun r I P => line_D1 _ r I (le_n _) P) (fun r I P W => line_D2 _ r I (le_n _) P W))|split; [|exact Fi]]].
    2: { apply to_nverdict; [|exact V1|exact V2]. eapply m_end_steps; [apply m_end_start|exact E]. }
    intros lines HLs. pose proof (LInv_steps true rl _ _ LInv_start RS) as I.
    destruct (li_eof (r_h (m_rd t))) eqn:Ee.
    - destruct (l_eof _ I Ee) as [_ W]. rewrite (R2 W), app_nil_r in R1. subst out. apply (lines_delivered true rl); [exact RS|exact HLs].
    - split; [|intros X; destruct (l_end _ I X); congruence].
      destruct (l_data _ I) as [D|[D1 _]]; [|congruence].
      assert (D' : joined (items_of (r_out (m_rd t))) ++ (li_buf (r_h (m_rd t)) ++ r_pend (m_rd t)) ++ rest = out) by (rewrite <- R1, <- D, !app_assoc; reflexivity).
      destruct HLs as [Hf [HE2|[HE2 _]]]; fold (joined lines) in HE2; rewrite <- D' in HE2.
      + eapply joined_prefix; [apply I|exact Hf|]. symmetry. exact HE2.
      + eapply joined_prefix; [apply I|exact Hf|]. rewrite <- app_assoc in HE2. symmetry. exact HE2.
  Qed.
End NRun.
