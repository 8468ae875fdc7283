(** Where the claims C04, C08, C09, C10, C46 and C62, refuted in general, hold. *)
From Verif Require Import Py RedirModel RedirSpec Os PerformModel PerformSpec PerformSound RunModel RunSpec
  RunTopSpec RunMain RunFinal RunMore RunFail RunStarted RunPartial PropsRedir PropsRun.

(** C04 when the second descriptor's source is a duplicate of the first one's
    source: both descriptors of the program are the same open file. *)
Theorem C04_duplicated_source_partial : forall L logfd maxfd rs t i j a b ri rj o,
  performable L logfd rs t -> dget rs i = Some ri -> dget rs j = Some rj ->
  r_source ri = SInt a -> r_source rj = SInt b -> refers t a = Some o -> refers t b = Some o ->
  i <> logfd -> j <> logfd -> i < maxfd -> j < maxfd ->
  program_fd L logfd maxfd rs t i = Some o /\ program_fd L logfd maxfd rs t j = Some o.
Proof.
  intros L logfd maxfd rs t i j a b ri rj o P Di Dj Si Sj Ra Rb Hi Hj Li Lj. unfold program_fd.
  destruct (C03_child_has_exactly_its_redirects L logfd maxfd rs t P) as (t' & E & _).
  pose proof (C03_program_sees_exactly L logfd maxfd rs t t' i (pf_wf _ _ _ _ P) E Hi Li) as Xi.
  pose proof (C03_program_sees_exactly L logfd maxfd rs t t' j (pf_wf _ _ _ _ P) E Hj Lj) as Xj.
  rewrite E. cbn [fst]. rewrite Xi, Xj, Di, Dj. unfold wanted. rewrite Si, Sj. auto.
Qed.
Print Assumptions C04_duplicated_source_partial.
Definition dup_tab : tab :=
  [Some (mkEnt (OInit 0) false); Some (mkEnt (OInit 1) false); Some (mkEnt (OInit 2) false); Some (mkEnt (OInit 1) true)].
Definition dup_rs : redirects := [(1, mkRedirect 1 (SInt 1) 65 511 None true); (2, mkRedirect 2 (SInt 3) 65 511 None false)].
Example C04_partial_nonvacuous :
  performable some_limits 63 dup_rs dup_tab /\ refers dup_tab 1 = Some (OInit 1) /\ refers dup_tab 3 = Some (OInit 1) /\
  program_fd some_limits 63 64 dup_rs dup_tab 2 = Some (OInit 1).
Proof.
  split; [|vm_compute; auto]. constructor.
  - split; [cbn; repeat constructor; cbn; intuition congruence|]. repeat constructor; cbn; try reflexivity; discriminate.
  - intros r [<-|[<-|[] ] ]; left; [exists 1|exists 3]; split; try reflexivity; discriminate.
  - cbn. repeat constructor; cbn; intuition congruence.
  - vm_compute. lia.
  - vm_compute. lia.
  - intros (r & p & [<-|[<-|[] ] ] & S); discriminate.
Qed.

(** C08 for redirects at the outer ends of the pipeline: nothing is left open. *)
Theorem C08_outer_ends_partial : forall L pf a b f fl g gl s o0 o1,
  refers (s_tab s) 0 = Some o0 -> refers (s_tab s) 1 = Some o1 -> tget (s_tab s) 2 <> None ->
  clean (can_open L) INone true a -> clean (can_open L) IPiped false b ->
  can_open L f fl = true -> can_open L g gl = true ->
  match start L pf false (PPipe (PRedir a (stdin_file f fl)) (PRedir b [(1, mkRedirect 1 (SPath g) gl default_mode None false)])) s with
  | (_, Err e) => errs e
  | (s', Ok (ret, its)) => forall n, ~ In n (function_fds its) -> tget (s_tab s') n = tget (s_tab s) n
  end.
Proof.
  intros L pf a b f fl g gl s o0 o1 H0 H1 H2 Ca Cb Of Og.
  pose proof (C07_no_leak L pf false (PPipe (PRedir a (stdin_file f fl)) (PRedir b [(1, mkRedirect 1 (SPath g) gl default_mode None false)])) s o0 o1 H0 H1 H2) as X.
  assert (C : clean (can_open L) INone false (PPipe (PRedir a (stdin_file f fl)) (PRedir b [(1, mkRedirect 1 (SPath g) gl default_mode None false)]))).
  { assert (W : forall n src fl0, src <> SNone -> wf_redirects [(n, mkRedirect n src fl0 default_mode None false)]).
    { intros n src fl0 N. split; [repeat constructor; intros []|]. constructor; [split; [reflexivity|exact N]|constructor]. }
    cbn [clean]. split.
    - split; [now apply W|]. split; [|exact Ca]. constructor; [|constructor]. repeat split; cbn; try lia; auto; discriminate.
    - split; [now apply W|]. split; [|exact Cb]. constructor; [|constructor]. repeat split; cbn; try lia; auto; discriminate. }
  specialize (X C). destruct (start L pf false _ s) as [s' [ [ret its]|e] ]; [|exact X]. cbn [app] in X. apply X.
Qed.
Print Assumptions C08_outer_ends_partial.
Example C08_partial_nonvacuous :
  exists s' x, start some_limits (fun _ => true) false
    (PPipe (PRedir (PCmd [AWord "a"]) (stdin_file (PName "f") 0)) (PRedir (PCmd [AWord "b"]) [(1, mkRedirect 1 (SPath (PName "g")) 65 default_mode None false)])) shell = (s', Ok x).
Proof. vm_compute. eauto. Qed.

(** C09 for a group whose output is not piped: both members write to the
    shell's own standard output. *)
Theorem C09_unpiped_partial : forall L pf v w s o0 o1 logfd maxfd,
  refers (s_tab s) 0 = Some o0 -> refers (s_tab s) 1 = Some o1 -> tget (s_tab s) 2 <> None -> 1 < maxfd -> logfd <> 1 ->
  match start L pf false (PGroup (PCmd (map AWord v)) (PCmd (map AWord w))) s with
  | (_, Err e) => errs e
  | (s', Ok (ret, its)) => exists r1 t1 a1 r2 t2 a2, its = [IProc r1 t1 a1; IProc r2 t2 a2] /\
      (room L logfd r1 t1 -> find_free_fd r1 < maxfd -> a1 = map Word v /\ program_fd L logfd maxfd r1 t1 1 = Some o1) /\
      (room L logfd r2 t2 -> find_free_fd r2 < maxfd -> a2 = map Word w /\ program_fd L logfd maxfd r2 t2 1 = Some o1)
  end.
Proof.
  intros L pf v w s o0 o1 logfd maxfd H0 H1 H2 M N.
  pose proof (C06_wiring L pf false (PGroup (PCmd (map AWord v)) (PCmd (map AWord w))) s o0 o1 logfd maxfd H0 H1 H2) as X.
  assert (CW : forall v, clean (can_open L) INone false (PCmd (map AWord v))).
  { clear. intros v. cbn [clean]. induction v as [|x v IH]; [exact I|exact IH]. }
  assert (C : clean (can_open L) INone false (PGroup (PCmd (map AWord v)) (PCmd (map AWord w)))).
  { cbn [clean]. split; [discriminate|]. split; [reflexivity|]. split; apply CW. }
  specialize (X C). destruct (start L pf false _ s) as [s' [ [ret its]|e] ]; [|exact X]. destruct X as [X _].
  destruct (wire_words v (top_env o0 o1 false) (s_np s) (s_nt s)) as (m1 & p1 & q1 & E1 & W1).
  change (wire (PGroup (PCmd (map AWord v)) (PCmd (map AWord w))) (top_env o0 o1 false) (s_np s) (s_nt s)) with
    (let wa := wire (PCmd (map AWord v)) (top_env o0 o1 false) (s_np s) (s_nt s) in
     let wb := wire (PCmd (map AWord w)) (top_env o0 o1 false) (w_np wa) (w_nt wa) in
     mkWired (w_leaves wa ++ w_leaves wb) None None (w_np wb) (w_nt wb)) in X.
  cbv zeta in X. rewrite W1 in X. cbn [w_leaves w_np w_nt] in X.
  destruct (wire_words w (top_env o0 o1 false) p1 q1) as (m2 & p2 & q2 & E2 & W2). rewrite W2 in X. cbn [w_leaves app] in X.
  assert (IO : forall np nt m p q, make (top_env o0 o1 false) np nt = (m, p, q) -> io_of m 1 = Some o1).
  { intros np nt m p q E. cbn in E. injection E as <- _ _. reflexivity. }
  inversion X as [|? i1 ? l1 C1 X1]; subst. inversion X1 as [|? i2 ? l2 C2 X2]; subst. inversion X2; subst.
  destruct (conn_fd L logfd maxfd _ _ _ _ 1 C1 M (not_eq_sym N)) as (r1 & t1 & a1 & -> & B1).
  destruct (conn_fd L logfd maxfd _ _ _ _ 1 C2 M (not_eq_sym N)) as (r2 & t2 & a2 & -> & B2).
  exists r1, t1, a1, r2, t2, a2. split; [reflexivity|].
  split; intros R F.
  - destruct (B1 R F) as [-> P]. split; [reflexivity|]. rewrite P. eapply IO; eauto.
  - destruct (B2 R F) as [-> P]. split; [reflexivity|]. rewrite P. eapply IO; eauto.
Qed.
Print Assumptions C09_unpiped_partial.

(** C10 for a redirect marked as borrowed: the shell's descriptors are untouched. *)
Theorem C10_borrowed_partial : forall L pf ws n s,
  exists x, start L pf false (PRedir (PCmd (map AWord ws)) (stderr_to_borrowed n)) s = (s, Ok x).
Proof. exact borrowed_source. Qed.
Print Assumptions C10_borrowed_partial.

(** C46 for a builtin outside pipes: it starts, starts nothing else and leaves
    the descriptors alone. *)
Theorem C46_alone_partial : forall L pf s, start L pf false PBuiltin s = (s, Ok (None, [])).
Proof. exact builtin_alone. Qed.
Print Assumptions C46_alone_partial.

(** C62 for redirects of different descriptors: both are in force. *)
Theorem C62_other_descriptor_partial : forall L pf ws f fl g gl s o0 o1 logfd maxfd,
  refers (s_tab s) 0 = Some o0 -> refers (s_tab s) 1 = Some o1 -> tget (s_tab s) 2 <> None ->
  can_open L f fl = true -> can_open L g gl = true -> 1 < maxfd -> logfd <> 0 -> logfd <> 1 ->
  match start L pf false (PRedir (PRedir (PCmd (map AWord ws)) [(1, mkRedirect 1 (SPath f) fl default_mode None false)]) (stdin_file g gl)) s with
  | (_, Err e) => errs e
  | (s', Ok (ret, its)) => exists r t a, its = [IProc r t a] /\
      (room L logfd r t -> find_free_fd r < maxfd ->
       program_fd L logfd maxfd r t 1 = Some (OFile f fl) /\ program_fd L logfd maxfd r t 0 = Some (OFile g gl))
  end.
Proof.
  intros L pf ws f fl g gl s o0 o1 logfd maxfd H0 H1 H2 Of Og M N0 N1.
  set (p := PRedir (PRedir (PCmd (map AWord ws)) [(1, mkRedirect 1 (SPath f) fl default_mode None false)]) (stdin_file g gl)).
  pose proof (C06_wiring L pf false p s o0 o1 logfd maxfd H0 H1 H2) as X.
  assert (C : clean (can_open L) INone false p).
  { assert (W : forall n src fl0, src <> SNone -> wf_redirects [(n, mkRedirect n src fl0 default_mode None false)]).
    { intros n src fl0 N. split; [repeat constructor; intros []|]. constructor; [split; [reflexivity|exact N]|constructor]. }
    unfold p. cbn [clean]. split; [now apply W|]. split; [constructor; [repeat split; cbn; try lia; auto; discriminate|constructor]|].
    split; [now apply W|]. split; [constructor; [repeat split; cbn; try lia; auto; discriminate|constructor]|].
    clear. induction ws as [|x v IH]; [exact I|exact IH]. }
  specialize (X C). destruct (start L pf false p s) as [s' [ [ret its]|e] ]; [|exact X]. destruct X as [X _].
  unfold p in X. change (wire (PRedir (PRedir ?c ?r1) ?r2) ?e ?n ?m) with (wire c (override (override e (dvals r2)) (dvals r1)) n m) in X.
  destruct (wire_words ws (override (override (top_env o0 o1 false) (dvals (stdin_file g gl))) (dvals [(1, mkRedirect 1 (SPath f) fl default_mode None false)])) (s_np s) (s_nt s)) as (m1 & p1 & q1 & E1 & W1).
  rewrite W1 in X. cbn [w_leaves] in X. cbn in E1. injection E1 as <- _ _.
  inversion X as [|? i1 ? l1 C1 X1]; subst. inversion X1; subst.
  assert (M0 : 0 < maxfd) by lia.
  destruct (conn_fd L logfd maxfd _ _ _ _ 1 C1 M (not_eq_sym N1)) as (r1 & t1 & a1 & -> & B1).
  destruct (conn_fd L logfd maxfd _ _ _ _ 0 C1 M0 (not_eq_sym N0)) as (r2 & t2 & a2 & A2 & B2).
  exists r1, t1, a1. split; [reflexivity|]. intros R F. injection A2 as <- <- <-.
  destruct (B1 R F) as [_ P1]. destruct (B2 R F) as [_ P2]. rewrite P1, P2. split; reflexivity.
Qed.
Print Assumptions C62_other_descriptor_partial.
Example C62_partial_nonvacuous :
  match start some_limits (fun _ => true) false (PRedir (PRedir (PCmd (map AWord ["a"%string])) [(1, mkRedirect 1 (SPath (PName "f")) 65 default_mode None false)]) (stdin_file (PName "g") 0)) shell with
  | (_, Ok (_, [IProc r t _])) => program_fd some_limits 63 64 r t 0 = Some (OFile (PName "g") 0) /\ program_fd some_limits 63 64 r t 1 = Some (OFile (PName "f") 65)
  | _ => False
  end.
Proof. vm_compute. auto. Qed.
