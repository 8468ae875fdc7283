(** C39, C40 and C57: names in the interactive scope. *)
From Verif Require Import Py PathModel EnvModel ScopeModel ScopeSpec ScopeProofs.

Definition no_builtin : text -> option val := fun n => if text_eqb n (txt "len") then Some (VObj 99) else None.
(** A scope in environment 0, whose variables are HOME and len. *)
Definition demo : sstate :=
  mkS [(t_env, VEnv 0); (txt "x", VObj 1)] (fun n => if Nat.eqb n 0 then [(txt "HOME", VText (txt "/h"))] else [])
      (fun n => Nat.eqb n 0) (fun n => Nat.eqb n 0) (Some [(txt "mod", VObj 5); (txt "HOME", VObj 6)]) no_builtin.
Lemma demo_ok : in_env demo 0 /\ apart demo 0.
Proof.
  split; [reflexivity|]. intros name. unfold dmem. cbn [demo s_loc s_vars dget Nat.eqb].
  destruct (keqb_spec name t_env) as [->|]; [reflexivity|]. destruct (keqb_spec name (txt "x")) as [->|]; [reflexivity|discriminate].
Qed.

(** C39.  Where an assignment goes: to the environment variable of that name if
    there is one, to a local otherwise. *)
Theorem C39_where : forall s n name v s', in_env s n -> ordinary name -> scope_set s name v = (s', Ok tt) ->
  (dmem (s_vars s n) name = true -> dget (s_vars s' n) name = Some v /\ s_loc s' = s_loc s) /\
  (dmem (s_vars s n) name = false -> dget (s_loc s') name = Some v /\ forall m, s_vars s' m = s_vars s m).
Proof. exact assign_where. Qed.
Print Assumptions C39_where.
(** No other name changes, whatever the state. *)
Theorem C39_others : forall s n name v other, in_env s n -> ordinary name -> other <> name ->
  scope_get (fst (scope_set s name v)) other = scope_get s other.
Proof. exact assign_others. Qed.
Print Assumptions C39_others.
(** It fails only for a non-string value of a variable of the process's own
    environment, and then changes nothing. *)
Theorem C39_fails_iff : forall s n name v, in_env s n -> ordinary name ->
  ((exists e, snd (scope_set s name v) = Err e) <-> dmem (s_vars s n) name = true /\ s_os s n = true /\ is_text v = false) /\
  (forall e, snd (scope_set s name v) = Err e -> fst (scope_set s name v) = s).
Proof. intros s n name v E O. split; [now apply assign_fails|]. intros e. now apply (assign_fails_unchanged s n). Qed.
Print Assumptions C39_fails_iff.
(** Exactly when the new value is read back. *)
Theorem C39_read_back_iff : forall s n name v s', in_env s n -> ordinary name -> name <> t_exports -> scope_set s name v = (s', Ok tt) ->
  (scope_get s' name = Ok (FVal v) <->
   (dmem (s_vars s n) name = false \/ dmem (s_loc s) name = false \/ dget (s_loc s) name = Some v)).
Proof. exact assign_reads. Qed.
Print Assumptions C39_read_back_iff.
(** For all histories in which no local name is exported, the value read is the
    one assigned last.  Missing for the full property: histories that export a
    name which is a local variable (refuted below). *)
Theorem C39_last_assignment_partial : forall n s before name v after, in_env s n -> apart s n -> ordinary name -> name <> t_exports ->
  tidy_history n s (before ++ SAssign name v :: after) ->
  snd (scope_set (ssteps s before) name v) = Ok tt ->
  Forall (fun o => touches n o name = None) after ->
  scope_get (ssteps s (before ++ SAssign name v :: after)) name = Ok (FVal v).
Proof. exact last_assignment. Qed.
Print Assumptions C39_last_assignment_partial.
Ltac tidy_list := repeat (apply th_cons; [vm_compute; try discriminate; auto|]); try apply th_nil.
Example C39_nonvacuous :
  let before := [SExport 0 (txt "y") (VText (txt "1")); SAssign (txt "x") (VObj 2)] in
  let after := [SAssign (txt "x") (VObj 4); SUnexport 0 (txt "HOME"); SAssign (txt "z") (VObj 3)] in
  tidy_history 0 demo (before ++ SAssign (txt "y") (VText (txt "2")) :: after) /\
  snd (scope_set (ssteps demo before) (txt "y") (VText (txt "2"))) = Ok tt /\
  Forall (fun o => touches 0 o (txt "y") = None) after /\
  dget (s_vars (ssteps demo (before ++ SAssign (txt "y") (VText (txt "2")) :: after)) 0) (txt "y") = Some (VText (txt "2")) /\
  snd (scope_set demo (txt "HOME") (VObj 3)) = Err TypeError.
Proof.
  cbv zeta. split; [|split; [|split; [|split] ] ]; [tidy_list|vm_compute; reflexivity|repeat constructor|vm_compute; reflexivity|vm_compute; reflexivity].
Qed.
(** With exports["x"] after x = ..., later assignments to x are not read back:
    whatever is assigned, the first value is read. *)
Theorem C39_refuted : exists s n name u, in_env s n /\ ordinary name /\ name <> t_exports /\
  forall v, v <> u -> is_text v = true ->
    let s' := ssteps s [SAssign name u; SExport n name (VText (txt "2")); SAssign name v] in
    snd (scope_set (ssteps s [SAssign name u; SExport n name (VText (txt "2"))]) name v) = Ok tt /\
    scope_get s' name = Ok (FVal u).
Proof.
  exists demo, 0, (txt "y"), (VObj 7). repeat (split; [reflexivity || (repeat split; discriminate)|]).
  intros v N T. destruct v as [m|t|m]; try discriminate. vm_compute. auto.
Qed.
Print Assumptions C39_refuted.
(** The general form of the failure. *)
Theorem C39_shadowed_forever : forall s n name u v s', in_env s n -> ordinary name -> name <> t_exports ->
  dget (s_loc s) name = Some u -> dmem (s_vars s n) name = true -> u <> v -> scope_set s name v = (s', Ok tt) ->
  scope_get s' name = Ok (FVal u) /\ dget (s_vars s' n) name = Some v.
Proof.
  intros s n name u v s' E O X L D N H. destruct (assign_where s n name v s' E O H) as [A _]. destruct (A D) as [A1 A2].
  split; [|exact A1]. apply get_local. now rewrite A2.
Qed.
Print Assumptions C39_shadowed_forever.
(** The name "_" is not stored under that name: it is read back as a command. *)
Theorem C39_underscore : forall s n v s', in_env s n -> dget (s_loc s) t_under = None -> scope_set s t_under v = (s', Ok tt) ->
  scope_get s' t_under = Ok (FAttr n t_under).
Proof.
  intros s n v s' E L H. rewrite assign_under in H.
  rewrite (scope_set_cases s n) in H by (auto; discriminate).
  destruct (dmem (s_vars s n) t_last).
  - destruct (s_os s n && negb (is_text v)); [discriminate|]. injection H as <-.
    unfold scope_get, current. cbn [s_loc set_vars]. rewrite L, E. cbn [bind_res]. now rewrite teq_refl.
  - injection H as <-. unfold scope_get. cbn [s_loc set_loc]. rewrite dget_dset. change (keqb t_under t_last) with false. cbn match. rewrite L.
    unfold current. cbn [s_loc set_loc]. rewrite dget_dset. change (keqb t_env t_last) with false. cbn match. rewrite E. cbn [bind_res]. now rewrite teq_refl.
Qed.
Print Assumptions C39_underscore.

(** C40.  A name means what the first layer that knows it says, and a command
    otherwise. *)
Theorem C40_precedence : forall s n name f, in_env s n -> name <> t_under -> name <> txt "__setstate__" ->
  (scope_get s name = Ok f <-> first_hit s n name [Local; ExportsName; Variables; Enclosing; PyBuiltin] f).
Proof. exact lookup_iff. Qed.
Print Assumptions C40_precedence.
Theorem C40_never_unknown : forall s n name, in_env s n -> name <> txt "__setstate__" -> exists f, scope_get s name = Ok f.
Proof. exact lookup_total. Qed.
Print Assumptions C40_never_unknown.
Example C40_nonvacuous :
  scope_get demo (txt "x") = Ok (FVal (VObj 1)) /\ scope_get demo (txt "exports") = Ok (FExports 0) /\
  scope_get demo (txt "HOME") = Ok (FVal (VText (txt "/h"))) /\ scope_get demo (txt "mod") = Ok (FVal (VObj 5)) /\
  scope_get demo (txt "len") = Ok (FVal (VObj 99)) /\ scope_get demo (txt "ls") = Ok (FAttr 0 (txt "ls")).
Proof. vm_compute. repeat split. Qed.
Example C40_first_hit_nonvacuous : first_hit demo 0 (txt "HOME") [Local; ExportsName; Variables; Enclosing; PyBuiltin] (FVal (VText (txt "/h"))) /\
  ~ first_hit demo 0 (txt "HOME") [Local; ExportsName; Variables; Enclosing; PyBuiltin] (FVal (VObj 6)).
Proof.
  assert (H : first_hit demo 0 (txt "HOME") [Local; ExportsName; Variables; Enclosing; PyBuiltin] (FVal (VText (txt "/h")))).
  { apply hit_later; [reflexivity|]. apply hit_later; [reflexivity|]. now apply hit_here. }
  split; [exact H|]. intros G. pose proof (first_hit_fun _ _ _ _ _ _ H G). discriminate.
Qed.

(** C57.  Within `with self.temporary_env(e):` the environment is e; afterwards
    it is self, whatever the block did and however it ended.  That is the
    previous one if self was current (partial); no environment involved has a
    variable called "env". *)
Theorem C57_restores_partial : forall s self e body m, s_linked s self = true -> in_env s self -> dmem (s_vars s self) t_env = false ->
  let s1 := fst (scope_set s t_env (VEnv e)) in
  in_env (body s1) m -> dmem (s_vars (body s1) m) t_env = false ->
  in_env s1 e /\ exists s', temporary_env s self e body = (s', Ok tt) /\ in_env s' self.
Proof. intros. now apply (temporary_result s self self e body m). Qed.
Print Assumptions C57_restores_partial.
Example C57_nonvacuous :
  let body s := sstep s (SAssign (txt "y") (VObj 3)) in
  s_linked demo 0 = true /\ in_env demo 0 /\ dmem (s_vars demo 0) t_env = false /\
  in_env (body (fst (scope_set demo t_env (VEnv 1)))) 1 /\ dmem (s_vars (body (fst (scope_set demo t_env (VEnv 1)))) 1) t_env = false.
Proof. vm_compute. repeat split. Qed.
(** If another environment n was current, n is not restored. *)
Theorem C57_refuted : forall s self n e body m, s_linked s self = true -> in_env s n -> n <> self -> dmem (s_vars s n) t_env = false ->
  let s1 := fst (scope_set s t_env (VEnv e)) in
  in_env (body s1) m -> dmem (s_vars (body s1) m) t_env = false ->
  exists s', temporary_env s self e body = (s', Ok tt) /\ ~ in_env s' n.
Proof.
  intros s self n e body m L E N D s1 M F. destruct (temporary_result s self n e body m L E D M F) as (_ & s' & T & X).
  exists s'. split; [exact T|]. intros Y. unfold in_env in *. congruence.
Qed.
Print Assumptions C57_refuted.
Example C57_refuted_nonvacuous :
  let s := link (fst (scope_set demo t_env (VEnv 2))) 0 in
  s_linked s 0 = true /\ in_env s 2 /\ dmem (s_vars s 2) t_env = false /\
  in_env (fst (scope_set s t_env (VEnv 1))) 1 /\ dmem (s_vars (fst (scope_set s t_env (VEnv 1))) 1) t_env = false.
Proof. vm_compute. repeat split. Qed.
