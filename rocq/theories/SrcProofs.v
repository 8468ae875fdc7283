(** A python iterator at the head of a pipeline behaves as a program that writes
    its items would, except that its writing can block the reader. *)
From Verif Require Import Py RedirModel Os PerformModel PerformSpec RunModel RunSpec RunTopSpec IterModel IterSpec IterProofs IterOut NetModel NetSpec NetProofs SrcModel SrcSpec.

(** A program that writes [l] and exits; [okf]: the status when a write has failed. *)
Fixpoint emits (l : list N) (ok okf : bool) : prog :=
  match l with [] => Exits ok | b :: r => Writes b (fun w => if w then emits r ok okf else Exits okf) end.
Lemma gives_emits l ok okf inp d : givesn (S (List.length l)) (emits l ok okf) inp d l (Some ok).
Proof. induction l; constructor; auto. Qed.
Lemma heeds_emits l ok okf : heeds okf (emits l ok okf).
Proof. induction l; constructor; auto. Qed.
Definition iok (e : iend) : bool := match e with EStop => true | ERaise _ => false end.

Section Src.
  Variable H : Type.
  Variable h_wants : H -> bool.
  Variable h_event : H -> bytes -> H * bool.
  Variable h_next h_resume : H -> H * outcome.
  Variable h_open : H -> bool.
  Variables np cap pipe_buf : nat.
  Variable fds : list nat.
  Variable sees : list (nat -> option ofd).
  Variable shell : tab.
  Variables x K k0 : nat.
  Notation see i := (nth i sees (fun _ => None)).
  Notation nstepH := (nstep H h_wants h_event h_next h_resume h_open np cap fds sees shell x K).
  Notation nstepsH := (nsteps H h_wants h_event h_next h_resume h_open np cap fds sees shell x K).
  Notation proc_stepH := (proc_step H h_open np cap fds sees shell x K).
  Notation writer := (writer_left H h_open fds sees shell x).
  Notation reader := (reader_left H h_open fds sees shell x).
  Notation goneH := (gone H h_open fds sees shell x K).
  Notation fstepH := (fstep H h_wants h_event h_next h_resume h_open np cap pipe_buf fds sees shell x K k0).
  Notation fstepsH := (fsteps H h_wants h_event h_next h_resume h_open np cap pipe_buf fds sees shell x K k0).
  Notation handlerH := (handler H h_open fds sees shell x K).
  Hypothesis Rd : forall s, reader s k0 = live (n_procs s) 1.
  Hypothesis Ek0 : see 0 1 = Some (OPipeW k0).
  Hypothesis Ours : ours np k0 = true.
  Hypothesis Nk0 : k0 <> K.
  Hypothesis Nw : forall i, see (S i) 1 <> Some (OPipeW k0).

  (** The network with another program in place of the function. *)
  Definition rep (p : prog) (s : net H) : net H := mkN (set_nth (n_procs s) 0 (Some p)) (n_pipes s) (n_in s) (n_rd s) (n_ok s).
  Lemma live_head test p q ps ss : some_live fds test (Some p :: ps) ss = some_live fds test (Some q :: ps) ss.
  Proof. now destruct ss. Qed.
  Lemma gone_rep q ps pi n r o p i ok : goneH (rep p (mkN (Some q :: ps) pi n r o)) (S i) ok = rep p (goneH (mkN (Some q :: ps) pi n r o) (S i) ok).
  Proof.
    unfold gone, rep. cbn [n_procs n_pipes n_in n_rd n_ok set_nth]. unfold writer_left. cbn [n_rd]. now rewrite (live_head _ p q).
  Qed.
  Lemma gone_rep0 s p ok : goneH (rep p s) 0 ok = goneH s 0 ok.
  Proof. destruct s as [ps pi n r o]. unfold gone, rep. cbn [n_procs n_pipes n_in n_rd n_ok]. destruct ps; reflexivity. Qed.
  Lemma proc_rep q ps pi n r o p i :
    proc_stepH (rep p (mkN (Some q :: ps) pi n r o)) (S i) = option_map (rep p) (proc_stepH (mkN (Some q :: ps) pi n r o) (S i)).
  Proof.
    unfold proc_step. cbn [nth n_procs rep set_nth]. destruct (nth i ps None) as [[f|b f|ok]|]; [| |cbn; now rewrite <- gone_rep|reflexivity].
    - unfold writer_left. cbn [n_rd rep n_procs set_nth]. change (content H K (rep p (mkN (Some q :: ps) pi n r o))) with (content H K (mkN (Some q :: ps) pi n r o)).
      destruct (see (S i) 0) as [[?|k|?|? ?|?]|]; try (destruct n; reflexivity).
      rewrite (live_head _ p q). destruct (ours np k); [|destruct n; reflexivity].
      unfold rep, becomes, pop. cbn [n_procs n_pipes n_in n_rd n_ok set_nth].
      destruct (content H K (mkN (Some q :: ps) pi n r o) k); [destruct (some_live _ _ _ _ || _)|destruct (Nat.eqb k K)]; reflexivity.
    - unfold reader_left. cbn [n_rd rep n_procs set_nth]. change (content H K (rep p (mkN (Some q :: ps) pi n r o))) with (content H K (mkN (Some q :: ps) pi n r o)).
      destruct (see (S i) 1) as [[?|?|k|? ?|?]|]; try reflexivity. rewrite (live_head _ p q). destruct (ours np k); [|reflexivity].
      destruct (negb _); [reflexivity|]. destruct (_ <? cap); [|reflexivity].
      unfold rep, becomes, push. cbn [n_procs n_pipes n_in n_rd n_ok set_nth]. destruct (Nat.eqb k K); reflexivity.
  Qed.
  Lemma nstep_rep q ps pi n r o p l : l <> NProc 0 ->
    nstepH (rep p (mkN (Some q :: ps) pi n r o)) l = option_map (rep p) (nstepH (mkN (Some q :: ps) pi n r o) l).
  Proof.
    intros Hl. unfold nstep. change (may H (rep p (mkN (Some q :: ps) pi n r o)) l) with (may H (mkN (Some q :: ps) pi n r o) l).
    destruct (negb (may H _ l)); [reflexivity|]. destruct l as [[|i]|m| | |ok]; [congruence|apply proc_rep| | | |]; cbn [reader_label n_rd rep];
      (destruct (rstep _ _ _ _ _ _ _ _ _); reflexivity).
  Qed.

  Lemma nstep_frame s l s' : l <> NProc 0 -> nstepH s l = Some s' ->
    (forall q ps, n_procs s = Some q :: ps -> exists ps', n_procs s' = Some q :: ps') /\
    (nth 0 (n_procs s) None = None -> nth 0 (n_procs s') None = None) /\
    (live (n_procs s') 1 = true -> live (n_procs s) 1 = true).
  Proof.
    intros Hl. unfold nstep. destruct (negb _); [discriminate|]. destruct l as [[|i]|m| | |ok]; [congruence| | | | |].
    2-5: cbn [reader_label]; destruct (rstep _ _ _ _ _ _ _ _ _); [|discriminate]; intros E; injection E as <-; cbn [n_procs]; (split; [intros q ps ->; eauto|split; auto]).
    intros E. apply proc_step_frame in E as (A & B & C). split; [|split].
    - intros q ps E0. specialize (B 0 ltac:(discriminate)). rewrite E0 in *. destruct (n_procs s') as [|q' ps']; [discriminate|]. cbn in B. subst q'. eauto.
    - now rewrite (B 0) by discriminate.
    - unfold live. destruct (Nat.eq_dec 1 (S i)) as [E|E].
      + injection E as <-. destruct (nth 1 (n_procs s) None); [reflexivity|congruence].
      + now rewrite (B 1 E).
  Qed.

  (** ** The simulation *)
  Definition rem (s : fnet H) : list N :=
    match f_wr s with
    | Some (_, rest) => rest ++ rendered (tl (o_items (f_out s)))
    | None => rendered (o_items (f_out s))
    end.
  Definition wr_ok (s : fnet H) : Prop := f_wr s <> None ->
    o_open (f_out s) = true /\ o_inflight (f_out s) <> 0 /\ exists v its, o_items (f_out s) = Some v :: its.
  Variable items : list (option bytes).
  Variable e : iend.
  Variable st0 : bool -> net H.              (* the network with a program in place of the iterator, given its status when a write fails *)
  Definition okinv (o : ostate) : Prop := (o_open o = true -> o_done o = None /\ o_end o = e) /\ (o_open o = false -> o_done o <> None).
  Definition progsteps (ls : list nlabel) : nat := List.length (filter proc_label ls).
  Definition rel (s : fnet H) (N : nat) : Prop :=
    wr_ok s /\ okinv (f_out s) /\
    if o_open (f_out s)
    then exists q ps r ls, n_procs (f_net s) = Some q :: ps /\ (forall okf, nstepsH (st0 okf) ls = Some (rep (emits r (iok e) okf) (f_net s))) /\
           (live (n_procs (f_net s)) 1 = true -> r = rem s) /\ (r = [] -> rem s = []) /\ N <= progsteps ls
    else exists okf ls, nstepsH (st0 okf) ls = Some (f_net s) /\ nth 0 (n_procs (f_net s)) None = None /\ (iok e = false -> okf = false) /\ N <= progsteps ls.
  Lemma nsteps_app' a : forall s b, nstepsH s (a ++ b) = match nstepsH s a with Some s' => nstepsH s' b | None => None end.
  Proof. induction a as [|l a IH]; intros r b; cbn [nsteps List.app]; [reflexivity|]. destruct (nstepH r l); [apply IH|reflexivity]. Qed.
  Lemma filter_app {A} (f : A -> bool) a b : filter f (a ++ b) = filter f a ++ filter f b.
  Proof. induction a as [|y a IH]; cbn; [reflexivity|]. rewrite IH. now destruct (f y). Qed.
  Lemma progsteps_app a b : progsteps (a ++ b) = progsteps a + progsteps b.
  Proof. unfold progsteps. now rewrite filter_app, app_length. Qed.
  Lemma ends_net (s : net H) q ps okf : n_procs s = Some q :: ps -> nstepsH (rep (emits [] (iok e) okf) s) [NProc 0] = Some (goneH s 0 (iok e)).
  Proof.
    intros E. rewrite <- (gone_rep0 s (emits [] (iok e) okf)). cbn [nsteps nstep may negb]. unfold proc_step. cbn [rep n_procs]. rewrite E. cbn [set_nth nth emits].
    unfold rep. rewrite E. reflexivity.
  Qed.
  Lemma fails_net (s : net H) q ps b r okf : n_procs s = Some q :: ps -> live (n_procs s) 1 = false -> nstepsH (rep (emits (b :: r) (iok e) okf) s) [NProc 0; NProc 0] = Some (goneH s 0 okf).
  Proof.
    intros E X.
    assert (S1 : nstepH (rep (emits (b :: r) (iok e) okf) s) (NProc 0) = Some (rep (Exits okf) s)).
    { cbn [nstep may negb]. unfold proc_step. cbn [rep n_procs]. rewrite E. cbn [set_nth nth emits]. rewrite Ek0, Ours, Rd. cbn [n_procs rep].
      unfold live in *. rewrite E in *. cbn [set_nth nth] in *. destruct (nth 0 ps None); [discriminate|]. cbn [negb]. unfold rep, becomes. cbn [n_procs n_pipes n_in n_rd n_ok]. rewrite E. reflexivity. }
    assert (S2 : nstepH (rep (Exits okf) s) (NProc 0) = Some (goneH s 0 okf)).
    { rewrite <- (gone_rep0 s (Exits okf)). cbn [nstep may negb]. unfold proc_step. cbn [rep n_procs]. rewrite E. cbn [set_nth nth]. unfold rep. rewrite E. reflexivity. }
    cbn [nsteps]. now rewrite S1, S2.
  Qed.
  Lemma write_net (s : net H) q ps b r okf : n_procs s = Some q :: ps -> live (n_procs s) 1 = true -> (List.length (content H K s k0) <? cap) = true ->
    nstepsH (rep (emits (b :: r) (iok e) okf) s) [NProc 0] = Some (rep (emits r (iok e) okf) (push H K s k0 b)).
  Proof.
    intros E X C. cbn [nsteps nstep may negb]. unfold proc_step. cbn [rep n_procs]. rewrite E. cbn [set_nth nth emits]. rewrite Ek0, Ours, Rd. cbn [rep n_procs].
    unfold live in *. rewrite E in *. cbn [set_nth nth] in *. destruct (nth 0 ps None); [|discriminate]. cbn [negb].
    change (content H K _ k0) with (content H K s k0). rewrite C. f_equal. unfold becomes, push, rep. destruct s as [ps0 pi n0 r0 o0]. cbn in E |- *. subst ps0.
    destruct (Nat.eqb_spec k0 K); [congruence|]. reflexivity.
  Qed.
  (** A step of the handler that leaves the descriptor open. *)
  Lemma handler_open s l s' : handlerH s l = Some s' -> o_open (f_out s') = o_open (f_out s) -> f_net s' = f_net s /\ f_wr s' = None /\ ostep (f_out s) l = Some (f_out s').
  Proof.
    unfold handler. destruct (ostep _ _) as [o|]; [|discriminate]. intros E. injection E as <-. cbn. intros ->. now rewrite andb_negb_r.
  Qed.
  Lemma handler_closes s l s' : handlerH s l = Some s' -> o_open (f_out s') = false -> o_open (f_out s) = true -> f_net s' = goneH (f_net s) 0 (status (f_out s')) /\ f_wr s' = None.
  Proof.
    unfold handler. destruct (ostep _ _) as [o|]; [|discriminate]. intros E. injection E as <-. cbn. intros -> ->. now split.
  Qed.
  Lemma handler_out s l s' : handlerH s l = Some s' -> ostep (f_out s) l = Some (f_out s') /\ f_wr s' = None.
  Proof. unfold handler. destruct (ostep _ _) as [o|]; [|discriminate]. intros E. injection E as <-. now split. Qed.
  Lemma handler_rest s l s' : handlerH s l = Some s' -> f_told s' = f_told s /\ f_woken s' = f_woken s /\ n_rd (f_net s') = n_rd (f_net s) \/
    f_told s' = f_told s /\ f_woken s' = f_woken s /\ o_open (f_out s) = true.
  Proof.
    unfold handler. destruct (ostep _ _) as [o|]; [|discriminate]. intros E. injection E as <-. cbn. destruct (o_open (f_out s)); auto.
  Qed.
  Lemma ostep_shut o l o' : o_open o = false -> ostep o l = Some o' -> o_open o' = false.
  Proof.
    intros E. destruct l as [| |w]; cbn.
    - now rewrite E.
    - destruct (o_tasks o); [discriminate|]. intros X. injection X as <-. destruct (o_lock o); exact E.
    - destruct (o_inflight o); [discriminate|]. intros X. injection X as <-. destruct (o_items o) as [|[b|] its]; cbn; auto. unfold o_write. cbn. rewrite E. reflexivity.
  Qed.
  Lemma okinv_step o l o' : okinv o -> ostep o l = Some o' -> okinv o'.
  Proof.
    intros [A B]. unfold okinv. destruct l as [| |w]; cbn.
    - destruct (o_open o) eqn:E; [|discriminate]. intros X. injection X as <-. cbn. split; [exact A|discriminate].
    - destruct (o_tasks o); [discriminate|]. intros X. injection X as <-. destruct (o_lock o); cbn; auto.
    - destruct (o_inflight o); [discriminate|]. intros X. injection X as <-. destruct (o_items o) as [|[b|] its]; cbn; auto.
      + split; [discriminate|]. intros _. destruct (o_done o); discriminate.
      + unfold o_write. cbn. destruct (o_open o) eqn:E; [|cbn; split; [discriminate|]; intros _; destruct (o_done o); discriminate].
        destruct w; cbn; rewrite ?E; auto; try (split; [auto|discriminate]). split; [discriminate|]. intros _. destruct (o_done o); discriminate.
  Qed.
  Lemma ostep_plain o l o' : (l = OWritable \/ l = OStart) -> ostep o l = Some o' -> o_open o' = o_open o /\ o_items o' = o_items o /\ o_inflight o <= o_inflight o'.
  Proof.
    intros [->| ->]; cbn.
    - destruct (o_open o) eqn:E; [|discriminate]. intros X. injection X as <-. cbn. auto.
    - destruct (o_tasks o); [discriminate|]. intros X. injection X as <-. destruct (o_lock o); cbn; auto.
  Qed.
  Lemma ostep_value o v its w o' : o_open o = true -> o_items o = Some v :: its -> ostep o (OYield w) = Some o' ->
    match w with WFail _ => o_open o' = false | _ => o_open o' = true /\ o_items o' = its end.
  Proof.
    intros E1 E2. cbn. destruct (o_inflight o); [discriminate|]. rewrite E2. intros X. injection X as <-. unfold o_write. cbn. rewrite E1. destruct w; cbn; auto.
  Qed.
  Lemma ostep_fails o v its x0 o' : okinv o -> o_open o = true -> o_items o = Some v :: its -> ostep o (OYield (WFail x0)) = Some o' -> status o' = false.
  Proof.
    intros [A _] E1 E2. cbn. destruct (o_inflight o); [discriminate|]. rewrite E2. intros X. injection X as <-. unfold o_write. cbn. rewrite E1. unfold status. cbn. destruct (A E1) as [-> _]. reflexivity.
  Qed.
  Lemma ostep_ends o w o' : okinv o -> o_open o = true -> o_items o = [] -> ostep o (OYield w) = Some o' -> o_open o' = false /\ status o' = iok e.
  Proof.
    intros [A _] E1 E2. cbn. destruct (o_inflight o); [discriminate|]. rewrite E2. intros X. injection X as <-. unfold status. cbn. destruct (A E1) as [-> ->]. split; [reflexivity|]. now destruct e.
  Qed.
  Lemma none_ok s : f_wr s = None -> wr_ok s.
  Proof. intros E X. congruence. Qed.
  Lemma rel_same s s' N : rel s N -> f_net s' = f_net s -> wr_ok s' -> okinv (f_out s') -> o_open (f_out s') = o_open (f_out s) ->
    (live (n_procs (f_net s)) 1 = true -> rem s' = rem s) -> (rem s = [] -> rem s' = []) -> rel s' N.
  Proof.
    intros (W & O & R) E1 W' O' E2 E3 E4. split; [exact W'|]. split; [exact O'|]. rewrite E2, E1. destruct (o_open (f_out s)); [|exact R].
    destruct R as (q & ps & r & ls & A & B & C & D & F). exists q, ps, r, ls. split; [exact A|]. split; [exact B|]. split; [|auto]. intros X. rewrite (E3 X). now apply C.
  Qed.
  (** The handler is destroyed: the program in its place goes. *)
  Lemma sim_close s ol s' N : rel s N -> o_open (f_out s) = true -> (live (n_procs (f_net s)) 1 = true -> rem s = []) -> handlerH s ol = Some s' -> o_open (f_out s') = false ->
    (rem s = [] -> status (f_out s') = iok e) -> (iok e = false -> status (f_out s') = false) -> rel s' N.
  Proof.
    intros (W & O & R) E X Hh Ho S1 S2. rewrite E in R. destruct R as (q & ps & r & ls & A & B & C & D & F). destruct (handler_closes _ _ _ Hh Ho E) as [E1 E2]. destruct (handler_out _ _ _ Hh) as [Es _].
    split; [now apply none_ok|]. split; [eapply okinv_step; eauto|]. rewrite Ho, E1.
    assert (Gd : nth 0 (n_procs (goneH (f_net s) 0 (status (f_out s')))) None = None) by (cbn; now rewrite A).
    destruct r as [|b r].
    - rewrite (S1 (D eq_refl)). exists (iok e), (ls ++ [NProc 0]). rewrite nsteps_app', B. rewrite (ends_net _ q ps _ A). split; [reflexivity|]. rewrite (S1 (D eq_refl)) in Gd. split; [exact Gd|]. split; [auto|]. rewrite progsteps_app. lia.
    - exists (status (f_out s')), (ls ++ [NProc 0; NProc 0]). rewrite nsteps_app', B. rewrite (fails_net _ q ps _ _ _ A).
      + split; [reflexivity|]. split; [exact Gd|]. split; [exact S2|]. rewrite progsteps_app. lia.
      + apply not_true_is_false. intros Y. pose proof (C Y). pose proof (X Y). congruence.
  Qed.
  Lemma sim_plain s ol s' N : rel s N -> f_wr s = None -> (ol = OWritable \/ ol = OStart) -> handlerH s ol = Some s' -> rel s' N.
  Proof.
    intros R Ew Ol Hh. destruct (handler_out _ _ _ Hh) as [Es E2]. destruct (ostep_plain _ _ _ Ol Es) as (A & B & _). destruct (handler_open _ _ _ Hh A) as (E1 & _ & _).
    assert (Er : rem s' = rem s) by (unfold rem; now rewrite E2, Ew, B).
    eapply rel_same; [exact R|exact E1|now apply none_ok| |exact A|auto|congruence]. eapply okinv_step; [apply R|exact Es].
  Qed.
  Lemma sim_net s l n' N tl' wk : rel s N -> l <> NProc 0 -> nstepH (f_net s) l = Some n' -> rel (mkF n' (f_out s) (f_wr s) tl' wk) (N + if proc_label l then 1 else 0).
  Proof.
    intros (W & O & R) Hl E. destruct (nstep_frame _ _ _ Hl E) as (F1 & F2 & F3). split; [exact W|]. split; [exact O|]. cbn [f_out f_net f_wr].
    assert (Pl : progsteps [l] = if proc_label l then 1 else 0) by (unfold progsteps; cbn; now destruct (proc_label l)).
    destruct (o_open (f_out s)) eqn:Eo.
    - destruct R as (q & ps & r & ls & A & B & C & D & F). destruct (F1 q ps A) as [ps' A']. exists q, ps', r, (ls ++ [l]).
      split; [exact A'|]. split; [|split; [|split; [exact D|]]].
      + intros okf. rewrite nsteps_app', B. cbn [nsteps]. destruct (f_net s) as [ps0 pi n0 r0 o0]. cbn [n_procs] in A. subst ps0. rewrite nstep_rep by exact Hl. rewrite E. reflexivity.
      + intros X. apply C. now apply F3.
      + rewrite progsteps_app. lia.
    - destruct R as (okf & ls & B & C & D & F). exists okf, (ls ++ [l]). split; [rewrite nsteps_app', B; cbn [nsteps]; now rewrite E|]. split; [now apply F2|]. split; [exact D|]. rewrite progsteps_app. lia.
  Qed.
  Definition count (l : flabel) : nat := if prog_label l then 1 else 0.
  Lemma fstep_net s nl s' : fstepH s (FNet nl) = Some s' -> nl <> NProc 0 /\ exists n wk, nstepH (f_net s) nl = Some n /\ s' = mkF n (f_out s) (f_wr s) (f_told s) wk /\
    wk = f_woken s || (at_eof n && negb (at_eof (f_net s))) /\
    (proc_label nl = false -> f_wr s = None) /\ (forall ok, nl = NAtEof ok -> f_woken s = true /\ running s = false).
  Proof.
    cbn [fstep]. intros X.
    assert (Hn : nl <> NProc 0) by (intros ->; discriminate).
    assert (Y : (if match nl with NProc _ => true | NAtEof _ => match f_wr s with None => f_woken s && negb (running s) | Some _ => false end | _ => match f_wr s with None => true | Some _ => false end end
      then match nstepH (f_net s) nl with Some n => Some (mkF n (f_out s) (f_wr s) (f_told s) (f_woken s || (at_eof n && negb (at_eof (f_net s))))) | None => None end else None) = Some s') by (destruct nl as [[|i]| | | |]; [congruence|exact X..]).
    clear X. split; [exact Hn|]. destruct (match nl with NProc _ => true | _ => _ end) eqn:G; [|discriminate]. destruct (nstepH (f_net s) nl) as [n|]; [|discriminate]. injection Y as <-.
    exists n, (f_woken s || (at_eof n && negb (at_eof (f_net s)))). split; [reflexivity|]. split; [reflexivity|]. split; [reflexivity|]. split.
    - destruct nl; [discriminate| | | |]; destruct (f_wr s); try discriminate; reflexivity.
    - intros ok ->. destruct (f_wr s); [discriminate|]. apply andb_prop in G as [G1 G2]. now apply negb_true_iff in G2.
  Qed.
  Lemma sim s l s' N : rel s N -> fstepH s l = Some s' -> rel s' (N + count l).
  Proof.
    intros R. pose proof R as (W & O & R'). destruct l as [nl| | | | |i|].
    - intros E. destruct (fstep_net _ _ _ E) as (Hn & n & wk & E1 & -> & _). unfold count. cbn [prog_label]. pose proof (sim_net s nl n N (f_told s) wk R Hn E1) as Z. destruct nl; exact Z.
    - cbn [fstep]. unfold count. cbn [prog_label]. rewrite Nat.add_0_r. destruct (f_wr s) eqn:Ew; [discriminate|]. destruct (_ || _); [|discriminate]. intros E. eapply sim_plain; [exact R|exact Ew| |exact E]; auto.
    - cbn [fstep]. unfold count. cbn [prog_label]. rewrite Nat.add_0_r. destruct (f_wr s) eqn:Ew; [discriminate|]. intros E. eapply sim_plain; [exact R|exact Ew| |exact E]; auto.
    - cbn [fstep]. unfold count. cbn [prog_label]. rewrite Nat.add_0_r. destruct (f_wr s) eqn:Ew; [discriminate|]. destruct (o_inflight (f_out s)) as [|k] eqn:Ei; [unfold handler, ostep; rewrite Ei; discriminate|].
      destruct (o_open (f_out s)) eqn:Eo.
      + destruct (o_items (f_out s)) as [|[v|] its] eqn:Eit.
        * intros E. destruct (handler_out _ _ _ E) as [Es _]. destruct (ostep_ends _ _ _ O Eo Eit Es) as [Z1 Z2]. eapply sim_close; [exact R|exact Eo| |exact E|exact Z1|auto|congruence].
          intros _. unfold rem. now rewrite Ew, Eit.
        * intros E. injection E as <-. eapply rel_same; [exact R|reflexivity| |exact O|reflexivity| |].
          -- intros _. cbn. rewrite Eo, Ei, Eit. split; [reflexivity|]. split; [discriminate|eauto].
          -- intros _. unfold rem. cbn [f_wr f_out]. now rewrite Ew, Eit.
          -- unfold rem. cbn [f_wr f_out]. now rewrite Ew, Eit.
        * intros E. destruct (handler_out _ _ _ E) as [Es E2]. pose proof Es as Es0. cbn in Es. rewrite Ei, Eit in Es. injection Es as Es.
          assert (A : o_open (f_out s') = o_open (f_out s)) by (rewrite <- Es; reflexivity).
          assert (Er : rem s' = rem s) by (unfold rem; rewrite E2, Ew, Eit, <- Es; reflexivity).
          destruct (handler_open _ _ _ E A) as (E1 & _ & _). eapply rel_same; [exact R|exact E1|now apply none_ok|eapply okinv_step; eauto|congruence|auto|congruence].
      + intros E. assert (E' : handlerH s (OYield WFull) = Some s') by (destruct (o_items (f_out s)) as [|[v|] its]; exact E). clear E.
        destruct (handler_out _ _ _ E') as [Es E2]. assert (A : o_open (f_out s') = false) by (eapply ostep_shut; eauto).
        destruct (handler_open _ _ _ E') as (E1 & _ & _); [congruence|]. split; [now apply none_ok|]. split; [eapply okinv_step; eauto|]. rewrite A, E1. exact R'.
    - cbn [fstep]. unfold count. cbn [prog_label]. rewrite Nat.add_0_r. destruct (f_wr s) as [[n rest]|] eqn:Ew; [|discriminate]. destruct (W ltac:(congruence)) as (Eo & _ & v & its & Eit). destruct rest as [|b r].
      + intros E. destruct (handler_out _ _ _ E) as [Es E2]. destruct (ostep_value _ _ _ _ _ Eo Eit Es) as [A B]. destruct (handler_open _ _ _ E) as (E1 & _ & _); [congruence|].
        assert (Er : rem s' = rem s) by (unfold rem; now rewrite E2, Ew, B, Eit).
        eapply rel_same; [exact R|exact E1|now apply none_ok|eapply okinv_step; eauto|congruence|auto|congruence].
      + rewrite Rd. destruct (live (n_procs (f_net s)) 1) eqn:El; cbn [negb].
        * destruct (_ <? cap) eqn:Ec; [|discriminate]. intros E. injection E as <-. rewrite Eo in R'. destruct R' as (q & ps & r' & ls & A & B & C & D & F).
          assert (r' = b :: r ++ rendered its) as -> by (rewrite (C eq_refl); unfold rem; rewrite Ew, Eit; reflexivity).
          split; [intros _; cbn; rewrite Eo, Eit; split; [reflexivity|split; [now apply W; congruence|eauto]]|]. split; [exact O|]. cbn [f_out f_net f_wr]. rewrite Eo.
          exists q, ps, (r ++ rendered its), (ls ++ [NProc 0]). split; [unfold push; destruct (Nat.eqb k0 K); exact A|]. split; [|split; [|split]].
          -- intros okf. rewrite nsteps_app', B. exact (write_net (f_net s) q ps b _ okf A El Ec).
          -- intros _. unfold rem. cbn [f_wr f_out]. now rewrite Eit.
          -- unfold rem. cbn [f_wr f_out]. now rewrite Eit.
          -- rewrite progsteps_app. lia.
        * intros E. destruct (handler_out _ _ _ E) as [Es E2]. pose proof (ostep_value _ _ _ _ _ Eo Eit Es) as V. destruct n as [|n].
          -- eapply sim_close; [exact R|exact Eo| |exact E|exact V| |]; [intros X; congruence| |intros _; eapply ostep_fails; eauto].
             unfold rem. rewrite Ew. discriminate.
          -- destruct V as [A B]. destruct (handler_open _ _ _ E) as (E1 & _ & _); [congruence|]. eapply rel_same; [exact R|exact E1|now apply none_ok|eapply okinv_step; eauto|congruence|intros X; congruence|].
             unfold rem. rewrite Ew. discriminate.
    - cbn [fstep]. unfold count. cbn [prog_label]. rewrite Nat.add_0_r. destruct (f_wr s) eqn:Ew; [discriminate|]. destruct (_ && _); [|discriminate]. intros E. injection E as <-.
      assert (Er : forall tl' wk, rem (mkF (f_net s) (f_out s) None tl' wk) = rem s) by (intros; unfold rem; cbn [f_wr f_out]; now rewrite Ew).
      eapply rel_same; [exact R|reflexivity|now apply none_ok|exact O|reflexivity|rewrite Er; auto|now rewrite Er].
    - cbn [fstep]. unfold count. cbn [prog_label]. rewrite Nat.add_0_r. destruct (f_wr s) eqn:Ew; [discriminate|]. destruct (_ && _); [|discriminate]. intros E. injection E as <-.
      assert (Er : forall tl' wk, rem (mkF (f_net s) (f_out s) None tl' wk) = rem s) by (intros; unfold rem; cbn [f_wr f_out]; now rewrite Ew).
      eapply rel_same; [exact R|reflexivity|now apply none_ok|exact O|reflexivity|rewrite Er; auto|now rewrite Er].
  Qed.
  Lemma fsteps_app a : forall s b, fstepsH s (a ++ b) = match fstepsH s a with Some s' => fstepsH s' b | None => None end.
  Proof. induction a as [|l a IH]; intros r b; cbn [fsteps List.app]; [reflexivity|]. destruct (fstepH r l); [apply IH|reflexivity]. Qed.
  Lemma sims ls : forall s N s', rel s N -> fstepsH s ls = Some s' -> rel s' (N + List.length (filter prog_label ls)).
  Proof.
    induction ls as [|l ls IH]; intros s N s' R; cbn [fsteps].
    - intros E. injection E as <-. cbn. now rewrite Nat.add_0_r.
    - destruct (fstepH s l) as [s1|] eqn:E; [|discriminate]. intros E2. pose proof (sim s l s1 N R E) as R1. pose proof (IH s1 _ s' R1 E2) as R2. cbn [filter]. unfold count in R2.
      destruct (prog_label l); cbn [List.length]; [|now rewrite Nat.add_0_r in R2]. now rewrite <- Nat.add_assoc in R2.
  Qed.
  Lemma rel_start h progs : (forall okf, st0 okf = net_start H h (emits (rendered items) (iok e) okf :: progs) []) -> rel (fnet_start H h items e progs) 0.
  Proof.
    intros S0. split; [now apply none_ok|]. split; [split; [now split|discriminate]|]. cbn [fnet_start f_out o_open f_net]. exists (Exits true), (map Some progs), (rendered items), []. split; [reflexivity|]. split; [|split; [|split]].
    - intros okf. rewrite S0. reflexivity.
    - reflexivity.
    - auto.
    - cbn. lia.
  Qed.

  (** ** Reports *)
  Definition told_ok (s : fnet H) : Prop := forall i, f_told s (S i) = true -> nth (S i) (n_procs (f_net s)) None = None.
  (** A waiter that is not about to look waits for the report about some process. *)
  Definition wake (s : fnet H) : Prop :=
    at_eof (f_net s) = true -> f_woken s = false -> exists i, S i < List.length (n_procs (f_net s)) /\ f_told s (S i) = false.
  Lemma nstep_dead_stays s l s' j : nstepH s l = Some s' -> nth j (n_procs s) None = None -> nth j (n_procs s') None = None.
  Proof.
    unfold nstep. destruct (negb _); [discriminate|]. destruct l as [i|m| | |ok].
    2-5: cbn [reader_label]; destruct (rstep _ _ _ _ _ _ _ _ _); [|discriminate]; intros E; injection E as <-; auto.
    intros E D. destruct (proc_step_frame _ _ _ E) as (_ & B & C). destruct (Nat.eq_dec j i) as [->|Ne]; [congruence|]. now rewrite B.
  Qed.
  Lemma nstep_length s l s' : nstepH s l = Some s' -> List.length (n_procs s') = List.length (n_procs s).
  Proof.
    unfold nstep. destruct (negb _); [discriminate|]. destruct l as [i|m| | |ok].
    2-5: cbn [reader_label]; destruct (rstep _ _ _ _ _ _ _ _ _); [|discriminate]; intros E; injection E as <-; auto.
    intros E. exact (proj1 (proc_step_frame _ _ _ E)).
  Qed.
  Lemma handler_net s l s' : handlerH s l = Some s' -> f_told s' = f_told s /\ f_woken s' = f_woken s /\ at_eof (f_net s') = at_eof (f_net s) /\
    List.length (n_procs (f_net s')) = List.length (n_procs (f_net s)) /\ forall i, nth (S i) (n_procs (f_net s')) None = nth (S i) (n_procs (f_net s)) None.
  Proof.
    unfold handler. destruct (ostep _ _) as [o|]; [|discriminate]. intros E. injection E as <-. cbn. destruct (o_open (f_out s) && negb (o_open o)); [|auto].
    split; [reflexivity|]. split; [reflexivity|]. split; [reflexivity|]. cbn. rewrite set_nth_length. split; [reflexivity|]. intros i. destruct (n_procs (f_net s)); reflexivity.
  Qed.
  Lemma reports_handler s l s' : handlerH s l = Some s' -> told_ok s /\ wake s -> told_ok s' /\ wake s'.
  Proof.
    intros E [T W]. destruct (handler_net _ _ _ E) as (A & B & C & D & F). split; [intros i; rewrite A, F; apply T|]. intros Pa Pw. rewrite A, D. apply W; congruence.
  Qed.
  Lemma reports s l s' : okinv (f_out s) -> (o_open (f_out s) = true -> live (n_procs (f_net s)) 1 = true) -> fstepH s l = Some s' -> told_ok s /\ wake s -> told_ok s' /\ wake s'.
  Proof.
    intros O Al E TW. pose proof TW as [T W]. destruct l as [nl| | | | |i|].
    - destruct (fstep_net _ _ _ E) as (Hn & n & wk & E1 & -> & Ewk & _). split.
      + intros i X. cbn [f_told f_net] in *. eapply nstep_dead_stays; [exact E1|]. now apply T.
      + intros Pa Pw. cbn [f_told f_net f_woken] in *. rewrite (nstep_length _ _ _ E1). rewrite Ewk, Pa in Pw. apply orb_false_iff in Pw as [Pw1 Pw2]. cbn [andb] in Pw2. apply negb_false_iff in Pw2. now apply W.
    - cbn [fstep] in E. destruct (f_wr s); [discriminate|]. destruct (_ || _); [|discriminate]. eapply reports_handler; eauto.
    - cbn [fstep] in E. destruct (f_wr s); [discriminate|]. eapply reports_handler; eauto.
    - cbn [fstep] in E. destruct (f_wr s); [discriminate|]. destruct (o_inflight (f_out s)); [eapply reports_handler; eauto|]. destruct (o_open (f_out s)); [|eapply reports_handler; eauto].
      destruct (o_items (f_out s)) as [|[v|] its]; [eapply reports_handler; eauto| |eapply reports_handler; eauto]. injection E as <-. exact TW.
    - cbn [fstep] in E. destruct (f_wr s) as [[n [|b r]]|]; [eapply reports_handler; eauto| |discriminate]. destruct (negb _); [eapply reports_handler; eauto|]. destruct (_ <? cap); [|discriminate].
      injection E as <-. unfold told_ok, wake, push, at_eof in *. cbn [f_net f_told f_woken]. destruct (Nat.eqb k0 K); exact TW.
    - cbn [fstep] in E. destruct (f_wr s); [discriminate|]. destruct (_ && _) eqn:G; [|discriminate]. injection E as <-. split.
      + intros j. cbn [f_told f_net]. intros X. apply orb_prop in X as [X|X]; [|now apply T]. apply Nat.eqb_eq in X. subst i. apply andb_prop in G as [_ G]. apply andb_prop in G as [_ G].
        destruct (nth (S j) (n_procs (f_net s)) None); [discriminate|reflexivity].
      + intros _ X. discriminate X.
    - cbn [fstep] in E. destruct (f_wr s); [discriminate|]. destruct (_ && _) eqn:G; [|discriminate]. injection E as <-. split; [exact T|]. intros _ _. cbn [f_net f_told].
      apply andb_prop in G as [_ G]. unfold running in G. destruct (o_done (f_out s)) as [d|] eqn:Ed.
      + apply existsb_exists in G as (i & Hi & X). apply in_seq in Hi. destruct i as [|i]; [lia|]. exists i. apply negb_true_iff in X. split; [lia|exact X].
      + assert (Eo : o_open (f_out s) = true) by (destruct (o_open (f_out s)) eqn:Eo; [reflexivity|]; now apply (proj2 O) in Eo).
        specialize (Al Eo). unfold live in Al. destruct (nth 1 (n_procs (f_net s)) None) as [q|] eqn:E1; [|discriminate]. exists 0. split; [eapply nth_some_lt; exact E1|].
        apply not_true_is_false. intros X. apply T in X. congruence.
  Qed.
  (** Everybody is gone: the reports come in and the iteration ends. *)
  Definition silent (s : fnet H) (n : nat) : Prop := forall i, i < n -> S i < List.length (n_procs (f_net s)) -> f_told s (S i) = true.
  Lemma tell n : forall s, f_wr s = None -> (forall i, nth i (n_procs (f_net s)) None = None) ->
    exists ls s', fstepsH s ls = Some s' /\ f_wr s' = None /\ f_net s' = f_net s /\ f_out s' = f_out s /\ silent s' n /\ (forall i, n <= i -> f_told s' (S i) = f_told s (S i)) /\
      (f_woken s = true \/ (exists i, i < n /\ S i < List.length (n_procs (f_net s)) /\ f_told s (S i) = false) -> f_woken s' = true).
  Proof.
    induction n as [|n IH]; intros s Ew Hd.
    - exists [], s. split; [reflexivity|]. split; [exact Ew|]. split; [reflexivity|]. split; [reflexivity|]. split; [intros i Hi; lia|]. split; [reflexivity|]. intros [X|(i & X & _)]; [exact X|lia].
    - destruct (IH s Ew Hd) as (l1 & s1 & E1 & W1 & N1 & O1 & S1 & U1 & K1).
      destruct (f_told s1 (S n) || negb (S n <? List.length (n_procs (f_net s)))) eqn:Et.
      + exists l1, s1. split; [exact E1|]. split; [exact W1|]. split; [exact N1|]. split; [exact O1|]. split; [|split].
        * intros i Hi Hl. destruct (Nat.eq_dec i n) as [->|Ne]; [|apply S1; [lia|exact Hl]]. rewrite N1 in Hl. apply Nat.ltb_lt in Hl. rewrite Hl, orb_false_r in Et. exact Et.
        * intros i Hi. apply U1. lia.
        * intros [X|(i & Hi & Hl & X)]; [apply K1; now left|]. destruct (Nat.eq_dec i n) as [->|Ne]; [|apply K1; right; exists i; repeat split; auto; lia].
          rewrite U1 in Et by lia. apply Nat.ltb_lt in Hl. rewrite Hl, X in Et. discriminate.
      + apply orb_false_iff in Et as [Et El]. apply negb_false_iff in El.
        assert (E2 : fstepH s1 (FTold (S n)) = Some (mkF (f_net s1) (f_out s1) None (fun j => Nat.eqb j (S n) || f_told s1 j) true)) by (cbn [fstep]; rewrite W1, Et, N1, El, Hd; reflexivity).
        exists (l1 ++ [FTold (S n)]). eexists. rewrite fsteps_app, E1. cbn [fsteps]. rewrite E2. split; [reflexivity|]. split; [reflexivity|]. split; [exact N1|]. split; [exact O1|]. split; [|split].
        * intros i Hi Hl. cbn [f_told]. destruct (Nat.eq_dec i n) as [->|Ne]; [now rewrite Nat.eqb_refl|]. rewrite (S1 i); [apply orb_true_r|lia|exact Hl].
        * intros i Hi. cbn [f_told]. destruct (Nat.eqb_spec (S i) (S n)); [lia|]. apply U1. lia.
        * reflexivity.
  Qed.
  Lemma concludes s : f_wr s = None -> (forall i, nth i (n_procs (f_net s)) None = None) -> at_eof (f_net s) = true -> o_done (f_out s) <> None -> wake s ->
    exists ls s', fstepsH s ls = Some s' /\ ended (r_out (n_rd (f_net s'))).
  Proof.
    intros Ew Hd Pa Od W. destruct (tell (List.length (n_procs (f_net s))) s Ew Hd) as (l1 & s1 & E1 & W1 & N1 & O1 & S1 & _ & K1).
    assert (Wk : f_woken s1 = true).
    { apply K1. destruct (f_woken s) eqn:Ek; [now left|right]. destruct (W Pa Ek) as (i & A & B). exists i. split; [lia|auto]. }
    assert (Nr : running s1 = false).
    { unfold running. rewrite O1. destruct (o_done (f_out s)); [|congruence]. apply not_true_is_false. intros X. apply existsb_exists in X as (i & Hi & X). apply in_seq in Hi. destruct i as [|i]; [lia|].
      rewrite S1 in X; [discriminate| |]; rewrite ?N1 in *; lia. }
    assert (All : forallb (fun p : option prog => match p with Some _ => false | None => true end) (n_procs (f_net s1)) = true).
    { apply forallb_forall. intros p Hp. apply (In_nth _ _ None) in Hp as (i & Hi & Ei). rewrite N1, Hd in Ei. now subst p. }
    assert (Ph : r_phase (n_rd (f_net s1)) = PAtEof) by (unfold at_eof in Pa; rewrite N1; now destruct (r_phase (n_rd (f_net s)))).
    exists (l1 ++ [FNet (NAtEof (n_ok (f_net s1)))]). eexists. rewrite fsteps_app, E1. cbn [fsteps fstep]. rewrite W1, Wk, Nr. cbn [negb andb]. unfold nstep. cbn [may reader_label]. rewrite All, Bool.eqb_reflx. cbn [andb negb].
    unfold rstep. rewrite Ph. split; [reflexivity|]. cbn. unfold ended. rewrite !in_app_iff. destruct (n_ok (f_net s1)); cbn; auto.
  Qed.

  (** ** When the output fits into the pipe, the function closes its descriptor. *)
  Record fits (s : fnet H) : Prop := {
    ft_wr : wr_ok s;
    ft_out : o_open (f_out s) = true -> OInv items e (f_out s);
    ft_len : o_open (f_out s) = true -> live (n_procs (f_net s)) 1 = true -> List.length (n_pipes (f_net s) k0) + List.length (rem s) <= List.length (rendered items) }.
  Lemma nstep_pipe s l s' : l <> NProc 0 -> nstepH s l = Some s' -> List.length (n_pipes s' k0) <= List.length (n_pipes s k0).
  Proof.
    intros Hl. unfold nstep. destruct (negb _); [discriminate|]. destruct l as [[|i]|m| | |ok]; [congruence| | | | |].
    2-5: cbn [reader_label]; destruct (rstep _ _ _ _ _ _ _ _ _); [|discriminate]; intros E; injection E as <-; cbn; lia.
    unfold proc_step. destruct (nth (S i) (n_procs s) None) as [[f|b p|]|]; [| | |discriminate].
    - assert (Pop : forall k, List.length (n_pipes (pop H K s k) k0) <= List.length (n_pipes s k0)).
      { intros k. unfold pop. destruct (Nat.eqb k K); cbn; [lia|]. destruct (Nat.eqb_spec k0 k) as [->|]; [destruct (n_pipes s k); cbn; lia|lia]. }
      destruct (see (S i) 0) as [[?|k|?|? ?|?]|]; try (destruct (n_in s); intros E; injection E as <-; cbn; lia).
      all: try (intros E; injection E as <-; cbn; lia).
      all: destruct (ours np k); [|destruct (n_in s); intros E; injection E as <-; cbn; lia].
      all: destruct (content H K s k); [destruct (writer s _ _); [discriminate|]|]; intros E; injection E as <-; cbn; try lia; apply Pop.
    - pose proof (Nw i) as N. destruct (see (S i) 1) as [[?|?|k|? ?|?]|]; try (intros E; injection E as <-; cbn; lia).
      destruct (ours np k); [|intros E; injection E as <-; cbn; lia]. destruct (negb _); [intros E; injection E as <-; cbn; lia|]. destruct (_ <? cap); [|discriminate].
      intros E. injection E as <-. cbn. unfold push. destruct (Nat.eqb k K); cbn; [lia|]. destruct (Nat.eqb_spec k0 k) as [->|]; [congruence|lia].
    - intros E. injection E as <-. cbn. lia.
  Qed.
  Lemma fits_start h progs : fits (fnet_start H h items e progs).
  Proof. constructor; [now apply none_ok|intros _; apply OInv_init|]. intros _ _. unfold rem. cbn. apply le_n. Qed.
  Lemma fits_handler s l s' : fits s -> o_open (f_out s) = true -> nofail l -> handlerH s l = Some s' ->
    (o_open (f_out s') = true -> live (n_procs (f_net s)) 1 = true -> rem s' = rem s) -> fits s'.
  Proof.
    intros F Eo N Hh X. destruct (handler_out _ _ _ Hh) as [Es E2]. constructor.
    - now apply none_ok.
    - intros _. eapply OInv_step; [exact (ft_out s F Eo)|exact N|exact Es].
    - intros Eo'. destruct (handler_open _ _ _ Hh) as (E1 & _ & _); [congruence|]. rewrite E1. intros El. rewrite (X Eo' El). now apply (ft_len s F).
  Qed.
  Lemma fits_shut s : f_wr s = None -> o_open (f_out s) = false -> fits s.
  Proof. intros A B. constructor; [now apply none_ok|congruence|congruence]. Qed.
  Lemma fits_step s l s' : fits s -> fstepH s l = Some s' -> fits s'.
  Proof.
    intros F. pose proof (ft_wr s F) as W. destruct l as [nl| | | | |i|].
    { intros X. destruct (fstep_net _ _ _ X) as (Hn & n & wk & E & -> & _). pose proof (nstep_pipe _ _ _ Hn E) as P. destruct (nstep_frame _ _ _ Hn E) as (_ & _ & F3).
      constructor; [exact W|exact (ft_out s F)|]. cbn [f_out f_net]. intros A B. eapply Nat.le_trans; [apply Nat.add_le_mono_r; exact P|]. exact (ft_len s F A (F3 B)). }
    all: unfold fstep.
    - destruct (f_wr s) eqn:Ew; [discriminate|]. destruct (_ || _); [|discriminate]. intros E. destruct (handler_out _ _ _ E) as [Es E2].
      destruct (ostep_plain _ _ _ (or_introl eq_refl) Es) as (A & B & _). destruct (o_open (f_out s)) eqn:Eo; [|apply fits_shut; auto; congruence].
      eapply fits_handler; [exact F|exact Eo| |exact E|]; [exact Logic.I|]. intros _ _. unfold rem. now rewrite E2, Ew, B.
    - destruct (f_wr s) eqn:Ew; [discriminate|]. intros E. destruct (handler_out _ _ _ E) as [Es E2].
      destruct (ostep_plain _ _ _ (or_intror eq_refl) Es) as (A & B & _). destruct (o_open (f_out s)) eqn:Eo; [|apply fits_shut; auto; congruence].
      eapply fits_handler; [exact F|exact Eo| |exact E|]; [exact Logic.I|]. intros _ _. unfold rem. now rewrite E2, Ew, B.
    - destruct (f_wr s) eqn:Ew; [discriminate|]. destruct (o_inflight (f_out s)) as [|k] eqn:Ei; [unfold handler, ostep; rewrite Ei; discriminate|].
      destruct (o_open (f_out s)) eqn:Eo.
      + destruct (o_items (f_out s)) as [|[v|] its] eqn:Eit; intros E.
        * eapply fits_handler; [exact F|exact Eo| |exact E|]; [exact Logic.I|]. destruct (handler_out _ _ _ E) as [Es E2]. cbn in Es. rewrite Ei, Eit in Es. injection Es as <-. discriminate.
        * injection E as <-. constructor.
          -- intros _. cbn. rewrite Eo, Ei, Eit. split; [reflexivity|]. split; [discriminate|eauto].
          -- exact (ft_out s F).
          -- intros A B. pose proof (ft_len s F A B) as Le. unfold rem in *. cbn [f_wr f_out f_net]. rewrite Ew, Eit in Le. rewrite Eit. exact Le.
        * eapply fits_handler; [exact F|exact Eo| |exact E|]; [exact Logic.I|]. intros _ _. destruct (handler_out _ _ _ E) as [Es E2]. cbn in Es. rewrite Ei, Eit in Es. injection Es as Es.
          unfold rem. rewrite E2, Ew, Eit, <- Es. reflexivity.
      + intros E. assert (E' : handlerH s (OYield WFull) = Some s') by (destruct (o_items (f_out s)) as [|[v|] its]; exact E). clear E.
        destruct (handler_out _ _ _ E') as [Es E2]. apply fits_shut; [exact E2|]. eapply ostep_shut; eauto.
    - destruct (f_wr s) as [[n rest]|] eqn:Ew; [|discriminate]. destruct (W ltac:(congruence)) as (Eo & Ei & v & its & Eit). destruct rest as [|b r].
      + intros E. destruct (handler_out _ _ _ E) as [Es E2]. destruct (ostep_value _ _ _ _ _ Eo Eit Es) as [A B].
        eapply fits_handler; [exact F|exact Eo| |exact E|]; [exact Logic.I|]. intros _ _. unfold rem. now rewrite E2, Ew, B, Eit.
      + rewrite Rd. destruct (live (n_procs (f_net s)) 1) eqn:El; cbn [negb].
        * destruct (_ <? cap) eqn:Ec; [|discriminate]. intros E. injection E as <-. constructor; cbn [f_out f_net].
          -- intros _. cbn. eauto.
          -- exact (ft_out s F).
          -- intros _ _. pose proof (ft_len s F Eo El) as Le. unfold rem in *. cbn [f_wr f_out]. rewrite Ew, Eit in Le. rewrite Eit. unfold push. destruct (Nat.eqb_spec k0 K); [congruence|].
             cbn [n_pipes]. rewrite Nat.eqb_refl, app_length. cbn [List.app List.length] in *. lia.
        * intros E. destruct (handler_out _ _ _ E) as [Es E2]. pose proof (ostep_value _ _ _ _ _ Eo Eit Es) as V. destruct n as [|n].
          -- apply fits_shut; [exact E2|exact V].
          -- eapply fits_handler; [exact F|exact Eo| |exact E|]; [exact Logic.I|]. intros _ X. congruence.
    - destruct (f_wr s) eqn:Ew; [discriminate|]. destruct (_ && _); [|discriminate]. intros E. injection E as <-. constructor; [now apply none_ok|exact (ft_out s F)|].
      intros A B. pose proof (ft_len s F A B) as Le. unfold rem in *. rewrite Ew in Le. exact Le.
    - destruct (f_wr s) eqn:Ew; [discriminate|]. destruct (_ && _); [|discriminate]. intros E. injection E as <-. constructor; [now apply none_ok|exact (ft_out s F)|].
      intros A B. pose proof (ft_len s F A B) as Le. unfold rem in *. rewrite Ew in Le. exact Le.
  Qed.
  Lemma fits_steps ls : forall s s', fits s -> fstepsH s ls = Some s' -> fits s'.
  Proof.
    induction ls as [|l ls IH]; intros s s' F; cbn [fsteps]; [intros E; now injection E as <-|].
    destruct (fstepH s l) as [s1|] eqn:E; [|discriminate]. apply IH. eapply fits_step; eauto.
  Qed.
  Hypothesis Small : List.length (rendered items) + pipe_buf <= cap.
  Hypothesis Pb : 0 < pipe_buf.
  Lemma content_k0 s : content H K s k0 = n_pipes s k0.
  Proof. unfold content. destruct (Nat.eqb_spec k0 K); [congruence|reflexivity]. Qed.
  Lemma handler_can s ol : ostep (f_out s) ol <> None -> exists s', handlerH s ol = Some s'.
  Proof. unfold handler. destruct (ostep (f_out s) ol); [eauto|congruence]. Qed.
  Lemma push_all rest : forall s n, fits s -> f_wr s = Some (n, rest) ->
    exists ls s', fstepsH s ls = Some s' /\ f_wr s' = None /\ (o_open (f_out s') = true -> o_items (f_out s') = tl (o_items (f_out s))).
  Proof.
    induction rest as [|b rest IH]; intros s n F Ew; destruct (ft_wr s F ltac:(congruence)) as (Eo & Ei & v & its & Eit).
    - destruct (handler_can s (OYield WFull)) as [s' E]; [cbn; destruct (o_inflight (f_out s)); congruence|]. exists [FPush], s'. cbn [fsteps fstep]. rewrite Ew, E. split; [reflexivity|].
      destruct (handler_out _ _ _ E) as [Es E2]. destruct (ostep_value _ _ _ _ _ Eo Eit Es) as [A B]. split; [exact E2|]. intros _. now rewrite B, Eit.
    - destruct (live (n_procs (f_net s)) 1) eqn:El.
      + assert (E : fstepH s FPush = Some (mkF (push H K (f_net s) k0 b) (f_out s) (Some (S n, rest)) (f_told s) (f_woken s))).
        { cbn [fstep]. rewrite Ew, Rd, El. cbn [negb]. pose proof (ft_len s F Eo El) as Le. unfold rem in Le. rewrite Ew in Le. rewrite app_length in Le. cbn [List.length] in Le.
          rewrite content_k0. destruct (Nat.ltb_spec (List.length (n_pipes (f_net s) k0)) cap); [reflexivity|lia]. }
        destruct (IH _ (S n) (fits_step _ _ _ F E) eq_refl) as (ls & s' & A & B). exists (FPush :: ls), s'. cbn [fsteps]. rewrite E. now split.
      + destruct (handler_can s (OYield (match n with 0 => WFail (OSError EPIPE) | _ => WShort n end))) as [s' E]; [cbn; destruct (o_inflight (f_out s)); congruence|].
        exists [FPush], s'. cbn [fsteps fstep]. rewrite Ew, Rd, El. cbn [negb]. rewrite E. split; [reflexivity|]. destruct (handler_out _ _ _ E) as [Es E2]. split; [exact E2|].
        pose proof (ostep_value _ _ _ _ _ Eo Eit Es) as V. destruct n; [congruence|]. destruct V as [_ ->]. now rewrite Eit.
  Qed.
  Lemma closes k : forall s, fits s -> List.length (o_items (f_out s)) <= k ->
    exists ls s', fstepsH s ls = Some s' /\ f_wr s' = None /\ o_open (f_out s') = false.
  Proof.
    induction k as [k IH] using lt_wf_ind. intros s F Hk.
    assert (Wr : forall s1 n rest, fits s1 -> f_wr s1 = Some (n, rest) -> o_items (f_out s1) = o_items (f_out s) -> exists ls s', fstepsH s1 ls = Some s' /\ f_wr s' = None /\ o_open (f_out s') = false).
    { intros s1 n rest F1 Ew Ei. destruct (push_all rest s1 n F1 Ew) as (l1 & s2 & A & B & C). destruct (o_open (f_out s2)) eqn:Eo; [|exists l1, s2; auto].
      destruct (ft_wr s1 F1 ltac:(congruence)) as (_ & _ & v & its & Eit). specialize (C eq_refl). rewrite Eit in C. cbn in C.
      destruct (IH (List.length (o_items (f_out s2)))) with (s := s2) as (l2 & s3 & A2 & B2); [rewrite C; rewrite <- Ei, Eit in Hk; cbn in Hk; lia|eapply fits_steps; eauto|lia|].
      exists (l1 ++ l2), s3. rewrite fsteps_app, A. now split. }
    destruct (f_wr s) as [[n rest]|] eqn:Ew; [now apply (Wr s n rest)|].
    destruct (o_open (f_out s)) eqn:Eo; [|exists [], s; auto].
    assert (Go : forall s1, fits s1 -> f_wr s1 = None -> o_open (f_out s1) = true -> o_items (f_out s1) = o_items (f_out s) -> o_inflight (f_out s1) <> 0 -> exists ls s', fstepsH s1 ls = Some s' /\ f_wr s' = None /\ o_open (f_out s') = false).
    { intros s1 F1 Ew1 Eo1 Ei1 Hi. destruct (o_inflight (f_out s1)) as [|j] eqn:Ej; [congruence|].
      destruct (o_items (f_out s1)) as [|[v|] its] eqn:Eit.
      - destruct (handler_can s1 (OYield WFull)) as [s2 E]; [cbn; rewrite Ej; discriminate|]. exists [FYield], s2. cbn [fsteps fstep]. rewrite Ew1, Ej, Eo1, Eit, E. split; [reflexivity|].
        destruct (handler_out _ _ _ E) as [Es E2]. split; [exact E2|]. cbn in Es. rewrite Ej, Eit in Es. injection Es as <-. reflexivity.
      - assert (E : fstepH s1 FYield = Some (mkF (f_net s1) (f_out s1) (Some (0, v ++ [nl])) (f_told s1) (f_woken s1))) by (cbn [fstep]; rewrite Ew1, Ej, Eo1, Eit; reflexivity).
        destruct (Wr _ 0 (v ++ [nl]) (fits_step _ _ _ F1 E) eq_refl) as (l2 & s3 & A2 & B2); [cbn [f_out]; congruence|]. exists (FYield :: l2), s3. cbn [fsteps]. rewrite E. now split.
      - destruct (handler_can s1 (OYield WFull)) as [s2 E]; [cbn; rewrite Ej; discriminate|]. assert (E' : fstepH s1 FYield = Some s2) by (cbn [fstep]; rewrite Ew1, Ej, Eo1, Eit; exact E).
        destruct (handler_out _ _ _ E) as [Es E2]. cbn in Es. rewrite Ej, Eit in Es. injection Es as Es.
        destruct (IH (List.length (o_items (f_out s2)))) with (s := s2) as (l2 & s3 & A2 & B2); [rewrite <- Es; cbn; rewrite <- Ei1 in Hk; cbn in Hk; lia|eapply fits_step; eauto|lia|].
        exists (FYield :: l2), s3. cbn [fsteps]. rewrite E'. now split. }
    pose proof (ft_out s F Eo) as I. pose proof (oi_inflight _ _ _ I) as Inf. rewrite Eo in Inf. cbn [andb] in Inf. destruct (o_lock (f_out s)) eqn:El.
    - apply Go; auto. rewrite Inf. discriminate.
    - destruct (handler_can s OWritable) as [s1 E1]; [cbn; rewrite Eo; discriminate|].
      assert (E1' : fstepH s FWritable = Some s1).
      { cbn [fstep]. rewrite Ew, Rd. destruct (live (n_procs (f_net s)) 1) eqn:Ell; [|now rewrite orb_true_r]. rewrite content_k0. pose proof (ft_len s F Eo Ell) as Le.
        destruct (Nat.leb_spec (pipe_buf + List.length (n_pipes (f_net s) k0)) cap); [exact E1|lia]. }
      destruct (handler_out _ _ _ E1) as [Es1 Ew1]. pose proof Es1 as Es1'. cbn in Es1'. rewrite Eo in Es1'. injection Es1' as Es1'.
      destruct (handler_can s1 OStart) as [s2 E2]; [cbn; rewrite <- Es1'; discriminate|].
      assert (E2' : fstepH s1 FStart = Some s2) by (cbn [fstep]; rewrite Ew1; exact E2).
      destruct (handler_out _ _ _ E2) as [Es2 Ew2]. cbn in Es2. rewrite <- Es1' in Es2. cbn in Es2. rewrite El in Es2. injection Es2 as Es2.
      destruct (Go s2) as (l3 & s3 & A & B).
      + eapply fits_step; [|exact E2']. eapply fits_step; [exact F|exact E1'].
      + exact Ew2.
      + rewrite <- Es2. reflexivity.
      + rewrite <- Es2. reflexivity.
      + rewrite <- Es2. discriminate.
      + exists (FWritable :: FStart :: l3), s3. cbn [fsteps]. rewrite E1', E2'. now split.
  Qed.
  (** Once it is closed the network goes on by itself. *)
  Lemma nstep_dead s l s' : nth 0 (n_procs s) None = None -> nstepH s l = Some s' -> l <> NProc 0.
  Proof. intros E X Y. subst l. cbn [nstep may negb] in X. unfold proc_step in X. rewrite E in X. discriminate. Qed.
  Lemma net_goes ls : forall s t, f_wr s = None -> nth 0 (n_procs (f_net s)) None = None -> Forall gentle ls -> nstepsH (f_net s) ls = Some t ->
    exists wk, fstepsH s (map FNet ls) = Some (mkF t (f_out s) None (f_told s) wk).
  Proof.
    induction ls as [|l ls IH]; intros s t Ew E0 G; cbn [nsteps map fsteps].
    - intros E. injection E as <-. destruct s as [a b c d f]. cbn in Ew |- *. subst c. eauto.
    - inversion G as [|? ? G1 G2]; subst. destruct (nstepH (f_net s) l) as [n|] eqn:E; [|discriminate]. intros E2. pose proof (nstep_dead _ _ _ E0 E) as Hl. destruct (nstep_frame _ _ _ Hl E) as (_ & F2 & _).
      assert (S1 : exists wk, fstepH s (FNet l) = Some (mkF n (f_out s) None (f_told s) wk)) by (cbn [fstep]; destruct l as [[|i]|m| | |ok]; try congruence; try contradiction; rewrite E, ?Ew; eauto).
      destruct S1 as [wk S1]. rewrite S1. exact (IH (mkF n (f_out s) None (f_told s) wk) t eq_refl (F2 E0) G2 E2).
  Qed.
End Src.
