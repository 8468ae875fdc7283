(** Proofs about words that insert variables. *)
From Verif Require Import Py PathModel EnvModel ScopeModel ScopeSpec ScopeProofs WordModel WordSpec.

Definition good (s : sstate) : Prop := exists n, in_env s n /\ s_linked s n = true.

Lemma linked_set_vars s n d m : s_linked (set_vars s n d) m = s_linked s m. Proof. reflexivity. Qed.
Lemma linked_set_loc s d m : s_linked (set_loc s d) m = s_linked s m. Proof. reflexivity. Qed.
Lemma export_set_kept s n name v : s_loc (fst (export_set s n name v)) = s_loc s /\ s_linked (fst (export_set s n name v)) = s_linked s.
Proof. unfold export_set. destruct (s_os s n && negb (is_text v)); split; reflexivity. Qed.
Lemma under_not_env : text_eqb t_under t_env = false. Proof. reflexivity. Qed.
Lemma last_not_env : t_last <> t_env. Proof. discriminate. Qed.

(** An assignment to something else than env *)
Lemma set_other s name v : name <> t_env -> dget (s_loc (fst (scope_set s name v))) t_env = dget (s_loc s) t_env /\ s_linked (fst (scope_set s name v)) = s_linked s.
Proof.
  intros N. unfold scope_set. set (nm := if text_eqb name t_under then t_last else name). cbn zeta.
  assert (M : nm <> t_env). { unfold nm. destruct (text_eqb name t_under); [exact last_not_env|exact N]. }
  destruct (text_eqb_spec nm t_env) as [E|_]; [contradiction|]. destruct (current s) as [n|e]; [|split; reflexivity].
  destruct (dmem (s_vars s n) nm).
  - destruct (export_set_kept s n nm v) as [-> ->]. now split.
  - cbn [fst]. split; [|reflexivity]. cbn [set_loc s_loc]. rewrite dget_dset, keqb_neq by congruence. reflexivity.
Qed.
Lemma set_env s n k : in_env s n -> s_linked s n = true -> good (fst (scope_set s t_env (VEnv k))).
Proof.
  intros E L. unfold scope_set. cbn [text_eqb]. change (text_eqb t_env t_under) with false. cbn iota. change (text_eqb t_env t_env) with true. cbn iota.
  assert (C : current (link s k) = Ok n) by (unfold current; cbn [link s_loc]; unfold in_env in E; now rewrite E). rewrite C. destruct (dmem (s_vars (link s k) n) t_env).
  - unfold good. exists n. destruct (export_set_kept (link s k) n t_env (VEnv k)) as [A B]. split.
    + unfold in_env. rewrite A. exact E.
    + rewrite B. cbn. destruct (Nat.eqb n k); [reflexivity|exact L].
  - exists k. split.
    + unfold in_env. cbn [fst set_loc s_loc]. rewrite dget_dset, keqb_refl. reflexivity.
    + cbn. now rewrite Nat.eqb_refl.
Qed.
Lemma step_good s o : keeps_env o -> good s -> good (sstep s o).
Proof.
  intros K (n & E & L). destruct o as [name v|k name v|k name|name v|name]; cbn [sstep keeps_env] in *.
  - destruct (text_eqb_spec name t_env) as [->|N].
    + destruct (K eq_refl) as [k ->]. now apply set_env with n.
    + exists n. destruct (set_other s name v N) as [A B]. split; [unfold in_env; now rewrite A|now rewrite B].
  - exists n. destruct (export_set_kept s k name v) as [A B]. split; [unfold in_env; now rewrite A|now rewrite B].
  - exists n. split; [exact E|exact L].
  - exists n. split; [|exact L]. unfold in_env. cbn [set_loc s_loc]. rewrite dget_dset, keqb_neq by congruence. exact E.
  - exists n. split; [|exact L]. unfold in_env. cbn [set_loc s_loc]. rewrite dget_ddel, keqb_neq by congruence. exact E.
Qed.
Lemma steps_good ops : forall s, Forall keeps_env ops -> good s -> good (ssteps s ops).
Proof. induction ops as [|o ops IH]; intros s K G; [exact G|]. inversion K; subst. cbn. apply IH; [assumption|]. now apply step_good. Qed.
Lemma step_unlinked s o n : not_env o -> in_env s n -> s_linked s n = false -> in_env (sstep s o) n /\ s_linked (sstep s o) n = false.
Proof.
  intros K E L. destruct o as [name v|k name v|k name|name v|name]; cbn [sstep not_env] in *.
  - destruct (set_other s name v K) as [A B]. split; [unfold in_env; now rewrite A|now rewrite B].
  - destruct (export_set_kept s k name v) as [A B]. split; [unfold in_env; now rewrite A|now rewrite B].
  - split; [exact E|exact L].
  - split; [|exact L]. unfold in_env. cbn [set_loc s_loc]. rewrite dget_dset, keqb_neq by congruence. exact E.
  - split; [|exact L]. unfold in_env. cbn [set_loc s_loc]. rewrite dget_ddel, keqb_neq by congruence. exact E.
Qed.
Lemma steps_unlinked ops : forall s n, Forall not_env ops -> in_env s n -> s_linked s n = false -> in_env (ssteps s ops) n /\ s_linked (ssteps s ops) n = false.
Proof. induction ops as [|o ops IH]; intros s n K E L; [now split|]. inversion K; subst. cbn. destruct (step_unlinked s o n) as [A B]; try assumption. now apply IH. Qed.
