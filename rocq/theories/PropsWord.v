(** C82: "%(name)s" inserts what name denotes where the word is written. *)
From Verif Require Import Py PathModel EnvModel ScopeModel ScopeSpec ScopeProofs WordModel WordSpec WordProofs.

(** At the prompt, after startup, it does, in every bare command and after any
    history of assignments (also to env), exports and deletions. *)
Theorem C82_prompt_partial : forall s n ops, in_env s n -> dmem (s_vars s n) t_env = false -> Forall keeps_env ops ->
  exists m, in_env (ssteps (startup s) ops) m /\
    forall name f, name <> t_under -> name <> txt "__setstate__" ->
      (word_get (ssteps (startup s) ops) m name = Ok f <-> denotes (ssteps (startup s) ops) m name f).
Proof.
  intros s n ops E D K. assert (G : good (startup s)).
  { unfold startup. rewrite (get_local s t_env (VEnv n) E). exists n. unfold scope_set. change (text_eqb t_env t_under) with false. cbn iota.
    change (text_eqb t_env t_env) with true. cbn iota. assert (C : current (link s n) = Ok n) by (unfold current; cbn [link s_loc]; unfold in_env in E; now rewrite E).
    rewrite C. change (s_vars (link s n) n) with (s_vars s n). rewrite D. cbn [fst]. split; [unfold in_env; cbn [set_loc s_loc]; now rewrite dget_dset, keqb_refl|cbn; now rewrite Nat.eqb_refl]. }
  destruct (steps_good ops _ K G) as (m & E' & L). exists m. split; [exact E'|]. intros name f N1 N2. unfold word_get. rewrite L. now apply lookup_iff.
Qed.
Print Assumptions C82_prompt_partial.
(** But a command of an environment made with env(...) or env[dir] does not see
    the variables of the prompt ... *)
Theorem C82_derived_refuted : forall s n m name v, in_env s n -> s_linked s m = false -> dget (s_loc s) name = Some v -> dmem (s_vars s m) name = false ->
  denotes s n name (FVal v) /\ word_get s m name = Err KeyError.
Proof.
  intros s n m name v E L H D. split.
  - apply hit_here. cbn. now rewrite H.
  - unfold word_get. rewrite L. unfold dmem in D. destruct (dget (s_vars s m) name); [discriminate|reflexivity].
Qed.
Print Assumptions C82_derived_refuted.
(** ... and one of an environment that was env earlier sees the variables of
    the environment that is env now, not its own. *)
Theorem C82_earlier_refuted : forall s n m name v w, in_env s n -> n <> m -> s_linked s m = true -> dget (s_loc s) name = None -> name <> t_exports -> name <> t_under ->
  dget (s_vars s n) name = Some v -> dget (s_vars s m) name = Some w -> word_get s m name = Ok (FVal v).
Proof.
  intros s n m name v w E N L H X U V W. unfold word_get. rewrite L. unfold scope_get. rewrite H. unfold current. unfold in_env in E. rewrite E. cbn [bind_res].
  destruct (text_eqb_spec name t_under) as [?|_]; [contradiction|]. cbn [negb]. destruct (text_eqb_spec name t_exports) as [?|_]; [contradiction|]. now rewrite V.
Qed.
Print Assumptions C82_earlier_refuted.
(** In a .pysh module (or with --no-startup, or in a pyshfunction) no variable
    that is assigned can be inserted, only environment variables. *)
Theorem C82_module_refuted : forall e vars os parent py ops, Forall not_env ops ->
  let s := ssteps (new_scope e vars os parent py) ops in
  in_env s e /\ (forall name v, dget (s_loc s) name = Some v -> dmem (s_vars s e) name = false ->
    denotes s e name (FVal v) /\ word_get s e name = Err KeyError) /\
  forall name f, word_get s e name = Ok f <-> exists v, f = FVal v /\ dget (s_vars s e) name = Some v.
Proof.
  intros e vars os parent py ops K s. destruct (steps_unlinked ops (new_scope e vars os parent py) e K) as [E L]; [reflexivity|reflexivity|]. fold s in E, L.
  split; [exact E|]. split.
  - intros name v H D. now apply C82_derived_refuted.
  - intros name f. unfold word_get. rewrite L. destruct (dget (s_vars s e) name) as [v|].
    + split; [intros H; injection H as <-; now exists v|intros (w & -> & [= <-]); reflexivity].
    + split; [discriminate|intros (w & _ & [=])].
Qed.
Print Assumptions C82_module_refuted.
(** A name nothing is known about makes a command: the program of that name is
    run and its output inserted. *)
Theorem C82_unknown_name : forall s n m name, in_env s n -> s_linked s m = true -> name <> t_under -> name <> txt "__setstate__" ->
  (forall l, in_layer s n name l = None) -> word_get s m name = Ok (FAttr n name).
Proof.
  intros s n m name E L U S H. unfold word_get. rewrite L. apply (lookup_iff s n name _ E U S). repeat (apply hit_later; [apply H|]). apply hit_command.
Qed.
Print Assumptions C82_unknown_name.
Definition vars0 (n : nat) : dict text val := if Nat.eqb n 0 then [(txt "HOME", VText (txt "/h"))] else [(txt "HOME", VText (txt "/other"))].
Definition prompt : sstate := startup (new_scope 0 vars0 (fun _ => false) None (fun _ => None)).
Example C82_nonvacuous :
  let s := ssteps prompt [SAssign (txt "x") (VObj 3)] in
  let t := ssteps prompt [SAssign t_env (VEnv 1)] in
  let mo := ssteps (new_scope 0 vars0 (fun _ => false) None (fun _ => None)) [SAssign (txt "x") (VObj 3)] in
  word_get s 0 (txt "x") = Ok (FVal (VObj 3)) /\ word_get s 0 (txt "HOME") = Ok (FVal (VText (txt "/h"))) /\
  word_get s 0 (txt "date") = Ok (FAttr 0 (txt "date")) /\
  word_get s 1 (txt "x") = Err KeyError /\ word_get s 1 (txt "HOME") = Ok (FVal (VText (txt "/other"))) /\
  word_get t 0 (txt "HOME") = Ok (FVal (VText (txt "/other"))) /\ s_linked t 0 = true /\
  word_get mo 0 (txt "x") = Err KeyError /\ scope_get mo (txt "x") = Ok (FVal (VObj 3)) /\ Forall keeps_env [SAssign (txt "x") (VObj 3); SAssign t_env (VEnv 1)].
Proof. repeat (split; [vm_compute; reflexivity|]). repeat constructor; cbn; [discriminate|]. intros _. now exists 1. Qed.
