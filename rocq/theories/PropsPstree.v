(** C105: the tree of processes and logins (INIT, CURRENT, USERS). *)
From Verif Require Import Py PathModel TreeModel TreeSpec TreeProofs PstreeModel PstreeSpec PstreeProofs.

(** Every child is at exactly one place, at most four names down, and nothing else is in
    the tree; the first name is made from the program's. *)
Theorem C105_exactly_once : forall slug depth l, keeps_pids slug -> distinct_pids l -> Forall answers l -> 4 <= depth ->
  exists t, ps_children slug depth l = Ok t /\
    forall p, (In p l <-> exists path, gfound t path p) /\ (forall x y, gfound t x p -> gfound t y p -> x = y) /\
      (forall path, gfound t path p -> 1 <= List.length path <= 4) /\
      (forall path n, gfound t path p -> program p n -> hd_error path = Some (attr_name slug n)).
Proof.
  intros slug depth l K D A Hd. unfold ps_children.
  assert (LAST : forall a b, gkey slug ps_key a 3 = gkey slug ps_key b 3 -> pid_key a = pid_key b).
  { intros a b E. rewrite !(gkey_Ok slug ps_key _ 3 _ eq_refl), !attr_pid in E by exact K. congruence. }
  destruct (gterminates slug ps_key pid_key 3 LAST 4 0 l (ps_distinct l D)) as [t B].
  { intros lv Hl a I. rewrite Forall_forall in A. destruct (ps_key_answers a lv (A a I) Hl) as [k Ek]. exists (attr_name slug k). now apply gkey_Ok. }
  { lia. } { lia. }
  exists t. split; [now apply (gmore_le slug ps_key pid_key 4 depth)|]. intros p. destruct (gmembers slug ps_key pid_key 4 0 l t (ps_distinct l D) B p) as (M1 & M2 & M3).
  split; [exact M1|]. split; [exact M2|]. split; [intros path F; now apply M3|]. intros path n F (e & Ee & En). destruct (M3 path F) as (_ & k & H & E). rewrite H.
  rewrite (gkey_Ok slug ps_key p 0 n) in E; [congruence|]. cbn [ps_key]. unfold name_key. rewrite Ee, En. reflexivity.
Qed.
Print Assumptions C105_exactly_once.

(** dir() lists a name exactly if it leads to a child, for every name but those the
    objects have themselves. *)
Theorem C105_dir : forall slug depth l t info k, distinct_pids l -> ps_children slug depth l = Ok t ->
  k <> txt "children" -> ~ In k (map txt ["INFO"; "PARENT"; "GROUP"; "SESS"]%string) ->
  (In k (gdir t) <-> reaches info (ps_children slug depth l) k).
Proof.
  intros slug depth l t info k D B Nc No. rewrite B. unfold reaches, proc_get.
  assert (existsb (text_eqb k) own_names = false) as ->.
  { destruct (existsb (text_eqb k) own_names) eqn:E; [|reflexivity]. apply existsb_exists in E as (x & I & E). destruct (text_eqb_spec k x) as [->|]; [contradiction|discriminate]. }
  rewrite (gdir_get slug ps_key pid_key depth 0 l t k (ps_distinct l D) B Nc). split.
  - intros [t' ->]. now exists t'.
  - intros [c E]. destruct (group_get t k) as [|t'|]; [discriminate|now exists t'|]. destruct (existsb (text_eqb k) info); discriminate.
Qed.
Print Assumptions C105_dir.
(** And it lists the names of the programs. *)
Theorem C105_dir_programs : forall slug depth l t k, distinct_pids l -> ps_children slug depth l = Ok t -> Forall (fun p => exists n, program p n) l ->
  (In k (gdir t) <-> exists p n, In p l /\ program p n /\ k = attr_name slug n).
Proof.
  intros slug depth l t k D B P. rewrite (gdir_keys slug ps_key pid_key depth 0 l t k (ps_distinct l D) B). rewrite Forall_forall in P.
  assert (X : forall p n, program p n -> gkey slug ps_key p 0 = Ok (attr_name slug n)).
  { intros p n (e & Ee & En). apply gkey_Ok. cbn [ps_key]. unfold name_key. now rewrite Ee, En. }
  split.
  - intros (a & I & E). destruct (P a I) as [n Pn]. exists a, n. split; [exact I|]. split; [exact Pn|]. rewrite (X a n Pn) in E. congruence.
  - intros (p & n & I & Pn & ->). exists p. auto.
Qed.
Print Assumptions C105_dir_programs.

(** One child that exits while it is asked for its executable hides all of them. *)
Theorem C105_gone_refuted : forall slug depth l p info, In p l -> ps_exe p = Gone ->
  (exists e, ps_children slug depth l = Err e) /\ forall k, ~ reaches info (ps_children slug depth l) k.
Proof.
  intros slug depth l p info I G. assert (X : exists e, ps_children slug depth l = Err e).
  { unfold ps_children. destruct depth as [|d]; [now eexists|]. rewrite gbuild_S. destruct (gcollect slug ps_key pid_key 0 [] l) as [procs|e] eqn:C; [|now exists e].
    exfalso. destruct (gcollect_keyed slug ps_key pid_key 0 l _ _ C p I) as [k K]. unfold gkey in K. cbn [ps_key] in K. unfold name_key in K. rewrite G in K. discriminate. }
  split; [exact X|]. destruct X as [e ->]. intros k [c H]. unfold proc_get in H. destruct (existsb (text_eqb k) own_names); [discriminate|]. destruct (existsb (text_eqb k) info); discriminate.
Qed.
Print Assumptions C105_gone_refuted.
(** So does a zombie with the same program as another child. *)
Theorem C105_zombie_refuted : forall slug depth l p q e info, distinct_pids l -> In p l -> In q l -> ps_pid p <> ps_pid q ->
  ps_exe p = Said e -> ps_exe q = Said e -> ps_cmdline p = Gone ->
  (exists e, ps_children slug depth l = Err e) /\ forall k, ~ reaches info (ps_children slug depth l) k.
Proof.
  intros slug depth l p q e info D Ip Iq Ne Ep Eq G. assert (X : exists e, ps_children slug depth l = Err e).
  { destruct (ps_children slug depth l) as [t|er] eqn:B; [|now exists er]. exfalso. unfold ps_children in B.
    destruct (gneeded slug ps_key pid_key depth 2 0 l t p q (ps_distinct l D) B Ip Iq) as [k K]; [congruence| |].
    - intros i Hi. unfold gkey. destruct i as [|[|i] ]; [| |lia]; cbn [Nat.add ps_key]; unfold name_key, exe_key; now rewrite Ep, Eq.
    - unfold gkey in K. cbn [Nat.add ps_key] in K. unfold cmd_key in K. rewrite G in K. discriminate. }
  split; [exact X|]. destruct X as [er ->]. intros k [c H]. unfold proc_get in H. destruct (existsb (text_eqb k) own_names); [discriminate|]. destruct (existsb (text_eqb k) info); discriminate.
Qed.
Print Assumptions C105_zombie_refuted.

(** A child called children is listed but cannot be reached. *)
Theorem C105_children_refuted : forall slug depth l t p n info, distinct_pids l -> ps_children slug depth l = Ok t ->
  In p l -> program p n -> attr_name slug n = txt "children" ->
  In (txt "children") (gdir t) /\ ~ reaches info (ps_children slug depth l) (txt "children").
Proof.
  intros slug depth l t p n info D B I (e & Ee & En) A. split.
  - apply (gdir_keys slug ps_key pid_key depth 0 l t _ (ps_distinct l D) B). exists p. split; [exact I|]. rewrite <- A. apply gkey_Ok. cbn [ps_key]. unfold name_key. now rewrite Ee, En.
  - rewrite B. intros [c H]. unfold ps_children in B. destruct depth as [|d]; [discriminate|].
    destruct (gbuild_get slug ps_key pid_key d 0 l t (ps_distinct l D) B) as (cs & -> & _). unfold proc_get, group_get in H.
    change (existsb (text_eqb (txt "children")) own_names) with false in H. change (text_eqb (txt "children") (txt "children")) with true in H. discriminate.
Qed.
Print Assumptions C105_children_refuted.

(** GROUP and SESS ask for the process's own group, unless a child is called pid. *)
Theorem C105_group : forall slug depth l info p, distinct_pids l -> In (txt "pid") info ->
  (forall t, ps_children slug depth l = Ok t -> ~ In (txt "pid") (gdir t)) ->
  group_arg info (ps_children slug depth l) p = Ok (ps_pid p).
Proof.
  intros slug depth l info p D I No. unfold group_arg, proc_get. change (existsb (text_eqb (txt "pid")) own_names) with false. cbn iota.
  assert (existsb (text_eqb (txt "pid")) info = true) as ->.
  { apply existsb_exists. exists (txt "pid"). split; [exact I|]. now destruct (text_eqb_spec (txt "pid") (txt "pid")). }
  destruct (ps_children slug depth l) as [t|e] eqn:B; [|reflexivity]. destruct (group_get t (txt "pid")) as [|c|] eqn:Gt; [|exfalso|reflexivity].
  - exfalso. unfold group_get in Gt. destruct t as [|cs]; [discriminate|]. change (text_eqb (txt "pid") (txt "children")) with false in Gt. cbn iota in Gt. destruct (dget cs (txt "pid")); discriminate.
  - assert (X : In (txt "pid") (gdir t)).
    { apply (gdir_get slug ps_key pid_key depth 0 l t _ (ps_distinct l D) B); [discriminate|]. now exists c. }
    exact (No t eq_refl X).
Qed.
Print Assumptions C105_group.
Theorem C105_pid_refuted : forall slug depth l t info p c n, distinct_pids l -> ps_children slug depth l = Ok t ->
  In c l -> program c n -> attr_name slug n = txt "pid" -> group_arg info (ps_children slug depth l) p = Err TypeError.
Proof.
  intros slug depth l t info p c n D B I (e & Ee & En) A. rewrite B. unfold group_arg, proc_get. change (existsb (text_eqb (txt "pid")) own_names) with false. cbn iota.
  assert (X : exists t', group_get t (txt "pid") = GChild t').
  { apply (gdir_get slug ps_key pid_key depth 0 l t _ (ps_distinct l D) B); [discriminate|].
    apply (gdir_keys slug ps_key pid_key depth 0 l t _ (ps_distinct l D) B). exists c. split; [exact I|]. rewrite <- A. apply gkey_Ok. cbn [ps_key]. unfold name_key. now rewrite Ee, En. }
  destruct X as [t' ->]. reflexivity.
Qed.
Print Assumptions C105_pid_refuted.

(** A child without an executable (a kernel thread) is below a name that is empty. *)
Theorem C105_kernel_refuted : forall slug depth l t p path, distinct_pids l -> ps_children slug depth l = Ok t -> slug [] = [] ->
  ps_exe p = Said [] -> gfound t path p -> hd_error path = Some [].
Proof.
  intros slug depth l t p path D B S E F. destruct (gmembers slug ps_key pid_key depth 0 l t (ps_distinct l D) B p) as (_ & _ & M). destruct (M path F) as (_ & k & H & K). rewrite H.
  rewrite (gkey_Ok slug ps_key p 0 []) in K; [unfold attr_name in K; rewrite S in K; congruence|]. cbn [ps_key]. unfold name_key. rewrite E. reflexivity.
Qed.
Print Assumptions C105_kernel_refuted.

(** Logins: each at exactly one place, the first name made from the user's. *)
Theorem C105_logins : forall slug depth us ls, keeps_pids slug -> 6 <= depth -> Forall2 login_of us ls -> NoDup (map login_pid ls) ->
  Forall (fun l => answers (l_process l) /\ exists h, l_host l = Some h) ls ->
  exists t, users_tree slug depth us = Ok t /\
    forall l, (In l ls <-> exists path, gfound t path l) /\ (forall x y, gfound t x l -> gfound t y l -> x = y) /\
      (forall path, gfound t path l -> 1 <= List.length path <= 6 /\ hd_error path = Some (attr_name slug (l_name l))).
Proof.
  intros slug depth us ls K Hd F2 D A. assert (LS : logins_of us = Ok ls).
  { clear - F2. induction F2 as [|u l us ls (N & H & P) F IH]; [reflexivity|]. cbn [logins_of]. rewrite P, IH. cbn [bind_res]. destruct l; cbn in *. congruence. }
  unfold users_tree. rewrite LS. cbn [bind_res].
  assert (LAST : forall a b, gkey slug login_key a 5 = gkey slug login_key b 5 -> login_ident a = login_ident b).
  { intros a b E. rewrite !(gkey_Ok slug login_key _ 5 _ eq_refl), !attr_pid in E by exact K. unfold login_ident. congruence. }
  assert (Di : distinct login_ident ls).
  { clear - D. unfold distinct. induction ls as [|p l IH]; cbn in *; [constructor|]. inversion D as [|? ? N1 N2]; subst. constructor; [|auto].
    intros I. apply N1. apply in_map_iff in I as (q & E & I). apply pid_key_inj in E. apply in_map_iff. exists q. split; [exact E|exact I]. }
  destruct (gterminates slug login_key login_ident 5 LAST 6 0 ls Di) as [t B].
  { intros lv Hl a I. rewrite Forall_forall in A. destruct (A a I) as [An [h Hh] ]. assert (X : exists k, login_key a lv = Ok k).
    { destruct lv as [|[|lv] ]; cbn [login_key]; [eauto|rewrite Hh; eauto|]. apply ps_key_answers; [exact An|lia]. }
    destruct X as [k Ek]. exists (attr_name slug k). now apply gkey_Ok. }
  { lia. } { lia. }
  exists t. split; [now apply (gmore_le slug login_key login_ident 6 depth)|]. intros l. destruct (gmembers slug login_key login_ident 6 0 ls t Di B l) as (M1 & M2 & M3).
  split; [exact M1|]. split; [exact M2|]. intros path F. destruct (M3 path F) as (L & k & H & E). split; [exact L|]. rewrite H. rewrite (gkey_Ok slug login_key l 0 (l_name l) eq_refl) in E. congruence.
Qed.
Print Assumptions C105_logins.
(** A login whose process is gone (utmp is not always cleaned) hides all of them. *)
Theorem C105_stale_login_refuted : forall slug depth us u, In u us -> u_process u = None -> users_tree slug depth us = Err PlainException.
Proof.
  intros slug depth us u I N. unfold users_tree. assert (logins_of us = Err PlainException) as ->; [|reflexivity].
  induction us as [|v us IH]; [destruct I|]. cbn [logins_of]. destruct I as [->|I]; [now rewrite N|]. destruct (u_process v); [|reflexivity]. now rewrite (IH I).
Qed.
Print Assumptions C105_stale_login_refuted.
(** So do two logins of one user if the host of one is not known. *)
Theorem C105_no_host_refuted : forall slug depth us ls a b, Forall2 login_of us ls -> NoDup (map login_pid ls) -> In a ls -> In b ls -> login_pid a <> login_pid b ->
  l_name a = l_name b -> l_host a = None -> exists e, users_tree slug depth us = Err e.
Proof.
  intros slug depth us ls a b F2 D Ia Ib Ne En Eh. assert (LS : logins_of us = Ok ls).
  { clear - F2. induction F2 as [|u l us ls (N & H & P) F IH]; [reflexivity|]. cbn [logins_of]. rewrite P, IH. cbn [bind_res]. destruct l; cbn in *. congruence. }
  unfold users_tree. rewrite LS. cbn [bind_res]. destruct (gbuild slug login_key login_ident depth 0 ls) as [t|e] eqn:B; [|now exists e]. exfalso.
  assert (Di : distinct login_ident ls).
  { clear - D. unfold distinct. induction ls as [|p l IH]; cbn in *; [constructor|]. inversion D as [|? ? N1 N2]; subst. constructor; [|auto].
    intros I. apply N1. apply in_map_iff in I as (q & E & I). apply pid_key_inj in E. apply in_map_iff. exists q. split; [exact E|exact I]. }
  destruct (gneeded slug login_key login_ident depth 1 0 ls t a b Di B Ia Ib) as [k K]; [congruence| |].
  - intros i Hi. replace i with 0 by lia. unfold gkey. cbn [Nat.add login_key]. now rewrite En.
  - unfold gkey in K. cbn [Nat.add login_key] in K. rewrite Eh in K. discriminate.
Qed.
Print Assumptions C105_no_host_refuted.
(** Of two logins of one user with the same process, the earlier is not in the tree. *)
Theorem C105_same_process_refuted : forall slug depth us ls1 a ls2 b t, Forall2 login_of us (ls1 ++ a :: ls2) -> users_tree slug depth us = Ok t ->
  ~ In a ls1 -> ~ In a ls2 -> In b ls2 -> l_name b = l_name a -> login_pid b = login_pid a -> forall path, ~ gfound t path a.
Proof.
  intros slug depth us ls1 a ls2 b t F2 B N1 N2 Ib En Ep path F. assert (LS : forall ls, Forall2 login_of us ls -> logins_of us = Ok ls).
  { clear. intros ls F2. induction F2 as [|u l us ls (N & H & P) F IH]; [reflexivity|]. cbn [logins_of]. rewrite P, IH. cbn [bind_res]. destruct l; cbn in *. congruence. }
  unfold users_tree in B. rewrite (LS _ F2) in B. cbn [bind_res] in B. destruct (gfound_last slug login_key login_ident depth 0 _ t path a B F) as (l1 & l2 & E & Y).
  assert (l2 = ls2) as ->.
  { clear - E N1 N2. revert l1 E. induction ls1 as [|x ls1 IH]; intros [|y l1] E; cbn in E.
    - congruence.
    - injection E as E1 E2. exfalso. apply N2. rewrite E2. apply in_or_app. right. now left.
    - injection E as E1 E2. exfalso. apply N1. now left.
    - injection E as E1 E2. apply (IH (fun I => N1 (or_intror I)) l1 E2). }
  apply (Y b Ib); [unfold login_ident, pid_key; unfold login_pid in Ep; now rewrite Ep|]. unfold gkey. cbn [login_key]. now rewrite En.
Qed.
Print Assumptions C105_same_process_refuted.

(** Three children, two of one program; one may not be read; a login. *)
Example C105_nonvacuous :
  let slug := fun t : text => t in
  let sh := mkPs 7 (Said (txt "/bin/sh")) (Said [txt "sh"]) in
  let sh2 := mkPs 8 (Said (txt "/bin/sh")) (Said [txt "sh"; txt "-c"]) in
  let root := mkPs 9 Denied (Said [txt "cron"]) in
  keeps_pids slug /\ distinct_pids [sh; sh2; root] /\ Forall answers [sh; sh2; root] /\
  match ps_children slug 10 [sh; sh2; root] with
  | Ok t => gfollow t [txt "sh"; txt "/bin/sh"; txt "sh -c"] = Some (GLeaf sh2) /\ gfollow t [txt "cron"] = Some (GLeaf root) /\ gdir t = [txt "sh"; txt "cron"]
  | Err _ => False
  end /\
  (exists t, users_tree slug 10 [mkU (txt "me") (Some (txt "")) (Some sh); mkU (txt "me") (Some (txt ":0")) (Some sh2)] = Ok t /\ gfollow t [txt "me"; txt ":0"] = Some (GLeaf (mkLogin (txt "me") (Some (txt ":0")) sh2))) /\
  (exists e, ps_children slug 10 [sh; mkPs 10 Gone Gone] = Err e).
Proof.
  cbv zeta. split; [intros n; reflexivity|]. split; [repeat constructor; cbn; intuition discriminate|]. split; [repeat constructor; cbn; discriminate|].
  vm_compute. repeat split; eexists; repeat split; reflexivity.
Qed.
