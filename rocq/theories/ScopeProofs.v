(** Proofs about the scope. *)
From Verif Require Import Py PathModel EnvModel ScopeModel ScopeSpec.

Lemma dmem_dset {V} (d : dict text V) k v x : dmem (dset d k v) x = text_eqb x k || dmem d x.
Proof. unfold dmem. rewrite dget_dset. cbn. destruct (text_eqb x k); reflexivity. Qed.
Lemma dmem_ddel {V} (d : dict text V) k x : dmem (ddel d k) x = negb (text_eqb x k) && dmem d x.
Proof. unfold dmem. rewrite dget_ddel. cbn. destruct (text_eqb x k); reflexivity. Qed.
Lemma teq_refl a : text_eqb a a = true.
Proof. destruct (text_eqb_spec a a); congruence. Qed.
Lemma teq_ne a b : a <> b -> text_eqb a b = false.
Proof. destruct (text_eqb_spec a b); congruence. Qed.

(** What an assignment does. *)
Lemma scope_set_cases s n name v : in_env s n -> name <> t_under -> name <> t_env ->
  scope_set s name v =
    if dmem (s_vars s n) name then
      (if s_os s n && negb (is_text v) then (s, Err TypeError) else (set_vars s n (dset (s_vars s n) name v), Ok tt))
    else (set_loc s (dset (s_loc s) name v), Ok tt).
Proof.
  intros E U V. unfold scope_set. rewrite (teq_ne _ _ U), (teq_ne _ _ V). unfold current. rewrite E. reflexivity.
Qed.

(** Lookup. *)
Lemma get_local s name v : dget (s_loc s) name = Some v -> scope_get s name = Ok (FVal v).
Proof. intros H. unfold scope_get. now rewrite H. Qed.
Lemma get_var s n name v : in_env s n -> dget (s_loc s) name = None -> name <> t_under -> name <> t_exports ->
  dget (s_vars s n) name = Some v -> scope_get s name = Ok (FVal v).
Proof.
  intros E L U X H. unfold scope_get. rewrite L. unfold current. rewrite E. cbn [bind_res].
  rewrite (teq_ne _ _ U), (teq_ne _ _ X), H. reflexivity.
Qed.

(** A lookup only looks at the entries of that name. *)
Lemma get_ext s s' n name : in_env s n -> in_env s' n -> dget (s_loc s') name = dget (s_loc s) name ->
  dget (s_vars s' n) name = dget (s_vars s n) name -> s_parent s' = s_parent s -> s_builtin s' = s_builtin s ->
  scope_get s' name = scope_get s name.
Proof.
  intros E E' L V P B. unfold scope_get, current. rewrite L, E, E', P, B. cbn [bind_res]. rewrite V. reflexivity.
Qed.

Lemma first_hit_fun s n name ls f g : first_hit s n name ls f -> first_hit s n name ls g -> f = g.
Proof.
  intros H. induction H as [l ls f E|l ls f E H IH|]; intros G; inversion G; subst; try congruence; auto.
Qed.
Lemma lookup_iff s n name f : in_env s n -> name <> t_under -> name <> txt "__setstate__" ->
  (scope_get s name = Ok f <-> first_hit s n name [Local; ExportsName; Variables; Enclosing; PyBuiltin] f).
Proof.
  intros E U G.
  assert (X : exists g, scope_get s name = Ok g /\ first_hit s n name [Local; ExportsName; Variables; Enclosing; PyBuiltin] g).
  { unfold scope_get, current. destruct (dget (s_loc s) name) as [v|] eqn:L.
    { eexists. split; [reflexivity|]. constructor. cbn [in_layer]. now rewrite L. }
    rewrite E. cbn [bind_res]. rewrite (teq_ne _ _ U). cbn [negb].
    destruct (text_eqb name t_exports) eqn:X.
    { eexists. split; [reflexivity|]. apply hit_later; [cbn [in_layer]; now rewrite L|]. constructor. cbn [in_layer]. now rewrite X. }
    destruct (dget (s_vars s n) name) as [v|] eqn:V.
    { eexists. split; [reflexivity|]. apply hit_later; [cbn [in_layer]; now rewrite L|]. apply hit_later; [cbn [in_layer]; now rewrite X|].
      constructor. cbn [in_layer]. now rewrite V. }
    destruct (match s_parent s with Some d => dget d name | None => None end) as [v|] eqn:P.
    { eexists. split; [reflexivity|]. apply hit_later; [cbn [in_layer]; now rewrite L|]. apply hit_later; [cbn [in_layer]; now rewrite X|].
      apply hit_later; [cbn [in_layer]; now rewrite V|]. constructor. cbn [in_layer]. destruct (s_parent s); [now rewrite P|discriminate]. }
    assert (P' : in_layer s n name Enclosing = None) by (cbn [in_layer]; destruct (s_parent s); [now rewrite P|reflexivity]).
    destruct (s_builtin s name) as [v|] eqn:B.
    { eexists. split; [reflexivity|]. apply hit_later; [cbn [in_layer]; now rewrite L|]. apply hit_later; [cbn [in_layer]; now rewrite X|].
      apply hit_later; [cbn [in_layer]; now rewrite V|]. apply hit_later; [exact P'|]. constructor. cbn [in_layer]. now rewrite B. }
    rewrite (teq_ne _ _ G). eexists. split; [reflexivity|].
    apply hit_later; [cbn [in_layer]; now rewrite L|]. apply hit_later; [cbn [in_layer]; now rewrite X|].
    apply hit_later; [cbn [in_layer]; now rewrite V|]. apply hit_later; [exact P'|]. apply hit_later; [cbn [in_layer]; now rewrite B|]. constructor. }
  destruct X as (g & X & Y). split.
  - intros Z. assert (f = g) by congruence. now subst.
  - intros Z. rewrite (first_hit_fun _ _ _ _ _ _ Z Y). exact X.
Qed.
Lemma lookup_total s n name : in_env s n -> name <> txt "__setstate__" -> exists f, scope_get s name = Ok f.
Proof.
  intros E G. destruct (text_eqb_spec name t_under) as [->|U].
  - unfold scope_get, current. destruct (dget (s_loc s) t_under); [eauto|]. rewrite E. cbn [bind_res]. rewrite teq_refl. cbn [negb]. eauto.
  - unfold scope_get, current. destruct (dget (s_loc s) name); [eauto|]. rewrite E. cbn [bind_res]. rewrite (teq_ne _ _ U), (teq_ne _ _ G). cbn [negb].
    destruct (text_eqb name t_exports); [eauto|]. destruct (dget (s_vars s n) name); [eauto|].
    destruct (match s_parent s with Some d => dget d name | None => None end); [eauto|]. destruct (s_builtin s name); eauto.
Qed.

(** One assignment. *)
Lemma assign_reads s n name v s' : in_env s n -> ordinary name -> name <> t_exports -> scope_set s name v = (s', Ok tt) ->
  (scope_get s' name = Ok (FVal v) <->
   (dmem (s_vars s n) name = false \/ dmem (s_loc s) name = false \/ dget (s_loc s) name = Some v)).
Proof.
  intros E (U & V & W) X H. rewrite (scope_set_cases s n) in H by assumption.
  destruct (dmem (s_vars s n) name) eqn:D.
  - destruct (s_os s n && negb (is_text v)); [discriminate|]. injection H as <-.
    split.
    + intros G. right. unfold dmem. destruct (dget (s_loc s) name) as [u|] eqn:L; [right|left; reflexivity].
      unfold scope_get in G. cbn [s_loc set_vars] in G. rewrite L in G. congruence.
    + intros [G|[G|G] ]; [discriminate| |].
      * apply (get_var _ n); [exact E| |exact U|exact X|].
        -- cbn. unfold dmem in G. destruct (dget (s_loc s) name); [discriminate|reflexivity].
        -- cbn [s_vars set_vars]. rewrite Nat.eqb_refl, dget_dset. cbn. now rewrite teq_refl.
      * apply get_local. exact G.
  - injection H as <-. split; [now left|]. intros _. apply get_local. cbn [s_loc set_loc]. rewrite dget_dset. cbn. now rewrite teq_refl.
Qed.
Lemma assign_where s n name v s' : in_env s n -> ordinary name -> scope_set s name v = (s', Ok tt) ->
  (dmem (s_vars s n) name = true -> dget (s_vars s' n) name = Some v /\ s_loc s' = s_loc s) /\
  (dmem (s_vars s n) name = false -> dget (s_loc s') name = Some v /\ forall m, s_vars s' m = s_vars s m).
Proof.
  intros E (U & V & W) H. rewrite (scope_set_cases s n) in H by assumption.
  destruct (dmem (s_vars s n) name) eqn:D; (split; [intros T|intros T]; try discriminate T).
  - destruct (s_os s n && negb (is_text v)); [discriminate|]. injection H as <-. cbn. rewrite Nat.eqb_refl, dget_dset. cbn. now rewrite teq_refl.
  - injection H as <-. cbn. rewrite dget_dset. cbn. now rewrite teq_refl.
Qed.
Lemma assign_fails s n name v : in_env s n -> ordinary name ->
  ((exists e, snd (scope_set s name v) = Err e) <-> dmem (s_vars s n) name = true /\ s_os s n = true /\ is_text v = false).
Proof.
  intros E (U & V & W). rewrite (scope_set_cases s n) by assumption.
  destruct (dmem (s_vars s n) name); [|split; [intros [e H]; discriminate|intros [H _]; discriminate] ].
  destruct (s_os s n); cbn; [|split; [intros [e H]; discriminate|intros (_ & H & _); discriminate] ].
  destruct (is_text v); cbn; split; try (intros [e H]; discriminate); [intros (_ & _ & H); discriminate|auto|eauto].
Qed.
Lemma assign_fails_unchanged s n name v e : in_env s n -> ordinary name -> snd (scope_set s name v) = Err e -> fst (scope_set s name v) = s.
Proof.
  intros E (U & V & W). rewrite (scope_set_cases s n) by assumption.
  destruct (dmem (s_vars s n) name); [|discriminate]. destruct (s_os s n && negb (is_text v)); [reflexivity|discriminate].
Qed.

(** What the operations leave alone. *)
Definition stays (n : nat) (name : text) (s s' : sstate) : Prop :=
  in_env s' n /\ dget (s_loc s') name = dget (s_loc s) name /\ dget (s_vars s' n) name = dget (s_vars s n) name /\
  s_parent s' = s_parent s /\ s_builtin s' = s_builtin s.
Lemma set_loc_in_env s n k v : in_env s n -> k <> t_env -> in_env (set_loc s (dset (s_loc s) k v)) n.
Proof. intros E K. unfold in_env in *. cbn [s_loc set_loc]. rewrite dget_dset. cbn [keqb Key_text]. rewrite teq_ne by congruence. exact E. Qed.
Lemma assign_under s v : scope_set s t_under v = scope_set s t_last v.
Proof. reflexivity. Qed.
Lemma under_ne_env : t_last <> t_env /\ t_last <> t_under /\ t_under <> t_env.
Proof. repeat split; discriminate. Qed.
Definition stored (k : text) : text := if text_eqb k t_under then t_last else k.
Lemma stored_ok k : k <> t_env -> stored k <> t_env /\ stored k <> t_under.
Proof.
  unfold stored. destruct (text_eqb_spec k t_under) as [->|U]; [intros _; split; discriminate|auto].
Qed.
Lemma scope_set_stored s k v : scope_set s k v = scope_set s (stored k) v.
Proof.
  unfold stored. destruct (text_eqb_spec k t_under) as [->|]; reflexivity.
Qed.
Lemma step_stays n name s o : in_env s n -> ordinary name -> tidy n s o -> touches n o name = None -> stays n name s (sstep s o).
Proof.
  intros E O T H. destruct o as [k v|m k v|m k|k v|k]; cbn [sstep tidy touches] in *.
  - rewrite scope_set_stored. destruct (stored_ok k T) as [A B].
    assert (K : stored k <> name).
    { unfold stored. destruct (text_eqb_spec k t_under) as [->|]; [destruct O as (_ & _ & O); congruence|].
      destruct (text_eqb_spec k name); [discriminate|assumption]. }
    rewrite (scope_set_cases s n) by assumption.
    destruct (dmem (s_vars s n) (stored k)).
    + destruct (s_os s n && negb (is_text v)); cbn [fst]; [repeat split; auto|].
      repeat split; auto. cbn [s_vars set_vars]. rewrite Nat.eqb_refl, dget_dset. cbn [keqb Key_text]. now rewrite teq_ne by congruence.
    + cbn [fst]. repeat split; auto; [now apply set_loc_in_env|]. cbn [s_loc set_loc]. rewrite dget_dset. cbn [keqb Key_text]. now rewrite teq_ne by congruence.
  - unfold export_set. destruct (s_os s m && negb (is_text v)); cbn [fst]; [repeat split; auto|].
    repeat split; auto. cbn [s_vars set_vars]. destruct (Nat.eqb_spec n m) as [->|N]; [|reflexivity].
    rewrite Nat.eqb_refl in H. cbn [andb] in H. rewrite dget_dset. cbn [keqb Key_text].
    destruct (text_eqb_spec k name); [discriminate|]. now rewrite teq_ne by congruence.
  - repeat split; auto. cbn [s_vars set_vars]. destruct (Nat.eqb_spec n m) as [->|N]; [|reflexivity].
    rewrite Nat.eqb_refl in H. cbn [andb] in H. rewrite dget_ddel. cbn [keqb Key_text].
    destruct (text_eqb_spec k name); [discriminate|]. now rewrite teq_ne by congruence.
  - contradiction.
  - destruct (text_eqb_spec k name); [discriminate|]. repeat split; auto.
    + unfold in_env in *. cbn [s_loc set_loc]. rewrite dget_ddel. cbn [keqb Key_text]. rewrite teq_ne by congruence. exact E.
    + cbn [s_loc set_loc]. rewrite dget_ddel. cbn [keqb Key_text]. now rewrite teq_ne by congruence.
Qed.
Lemma stays_get n name s s' : in_env s n -> stays n name s s' -> scope_get s' name = scope_get s name.
Proof. intros E (E' & L & V & P & B). now apply (get_ext s s' n). Qed.
(** In an untidy world too, an assignment changes no other name. *)
Lemma assign_others s n name v other : in_env s n -> ordinary name -> other <> name ->
  scope_get (fst (scope_set s name v)) other = scope_get s other.
Proof.
  intros E (U & V & W) N. rewrite (scope_set_cases s n) by assumption.
  destruct (dmem (s_vars s n) name).
  - destruct (s_os s n && negb (is_text v)); cbn [fst]; [reflexivity|]. apply (get_ext _ _ n); auto.
    cbn [s_vars set_vars]. rewrite Nat.eqb_refl, dget_dset. cbn [keqb Key_text]. now rewrite teq_ne by congruence.
  - cbn [fst]. apply (get_ext _ _ n); auto; [now apply set_loc_in_env|]. cbn [s_loc set_loc]. rewrite dget_dset. cbn [keqb Key_text]. now rewrite teq_ne by congruence.
Qed.

Lemma step_apart n s o : in_env s n -> apart s n -> tidy n s o -> apart (sstep s o) n /\ in_env (sstep s o) n.
Proof.
  intros E A T. destruct o as [k v|m k v|m k|k v|k]; cbn [sstep tidy] in *.
  - rewrite scope_set_stored. destruct (stored_ok k T) as [K1 K2].
    rewrite (scope_set_cases s n) by assumption.
    destruct (dmem (s_vars s n) (stored k)) eqn:D.
    + destruct (s_os s n && negb (is_text v)); cbn [fst]; [auto|]. split; [|exact E].
      intros x X. cbn [s_vars set_vars s_loc] in *. rewrite Nat.eqb_refl, dmem_dset. destruct (text_eqb_spec x (stored k)) as [->|]; cbn [orb]; [|auto].
      apply A in X. congruence.
    + cbn [fst]. split; [|now apply set_loc_in_env].
      intros x X. cbn [s_vars set_loc s_loc] in *. rewrite dmem_dset in X. destruct (text_eqb_spec x (stored k)) as [Q|Q]; [now rewrite Q|cbn [orb] in X; auto].
  - unfold export_set. destruct (s_os s m && negb (is_text v)); cbn [fst]; [auto|]. split; [|exact E].
    intros x X. cbn [s_vars set_vars s_loc] in *. destruct (Nat.eqb_spec n m) as [<-|N]; [|auto].
    rewrite dmem_dset. destruct (text_eqb_spec x k) as [->|]; cbn [orb]; [|auto]. rewrite (T eq_refl) in X. discriminate.
  - split; [|exact E]. intros x X. cbn [s_vars set_vars s_loc] in *. destruct (Nat.eqb_spec n m) as [<-|N]; [|auto].
    rewrite dmem_ddel, (A x X). now rewrite andb_false_r.
  - contradiction.
  - split.
    + intros x X. cbn [s_vars set_loc s_loc] in *. rewrite dmem_ddel in X. apply andb_true_iff in X as [_ X]. auto.
    + unfold in_env in *. cbn [s_loc set_loc]. rewrite dget_ddel. cbn [keqb Key_text]. rewrite teq_ne by congruence. exact E.
Qed.

Lemma history_stays n name ops : forall s, in_env s n -> ordinary name -> tidy_history n s ops ->
  Forall (fun o => touches n o name = None) ops -> scope_get (ssteps s ops) name = scope_get s name.
Proof.
  induction ops as [|o ops IH]; intros s E O T F; [reflexivity|]. inversion T as [|? ? ? T1 T2]; subst. inversion F as [|? ? F1 F2]; subst.
  pose proof (step_stays n name s o E O T1 F1) as S. change (ssteps s (o :: ops)) with (ssteps (sstep s o) ops). rewrite (IH (sstep s o)); auto; [|apply S]. now apply (stays_get n).
Qed.
Lemma history_apart n ops : forall s, in_env s n -> apart s n -> tidy_history n s ops -> in_env (ssteps s ops) n /\ apart (ssteps s ops) n.
Proof.
  induction ops as [|o ops IH]; intros s E A T; [auto|]. inversion T as [|? ? ? T1 T2]; subst.
  destruct (step_apart n s o E A T1) as [A' E']. change (ssteps s (o :: ops)) with (ssteps (sstep s o) ops). now apply IH.
Qed.
Lemma tidy_app n a : forall s b, tidy_history n s (a ++ b) -> tidy_history n s a /\ tidy_history n (ssteps s a) b.
Proof.
  induction a as [|o a IH]; intros s b T; [split; [constructor|exact T] |]. cbn in T. inversion T as [|? ? ? T1 T2]; subst.
  destruct (IH _ _ T2) as [X Y]. split; [now constructor|exact Y].
Qed.
Lemma last_assignment n s before name v after : in_env s n -> apart s n -> ordinary name -> name <> t_exports ->
  tidy_history n s (before ++ SAssign name v :: after) ->
  snd (scope_set (ssteps s before) name v) = Ok tt ->
  Forall (fun o => touches n o name = None) after ->
  scope_get (ssteps s (before ++ SAssign name v :: after)) name = Ok (FVal v).
Proof.
  intros E A O X T R F. apply tidy_app in T as [T1 T2]. destruct (history_apart n before s E A T1) as [E' A'].
  unfold ssteps at 1. rewrite fold_left_app. fold (ssteps s before). cbn [fold_left]. inversion T2 as [|? ? ? T3 T4]; subst.
  change (scope_get (ssteps (sstep (ssteps s before) (SAssign name v)) after) name = Ok (FVal v)).
  rewrite (history_stays n); auto; [|now apply step_apart].
  cbn [sstep]. destruct (scope_set (ssteps s before) name v) as [s' r] eqn:S. cbn [snd] in R. subst r. cbn [fst].
  apply (assign_reads _ n name v s' E' O X S). destruct (dmem (s_loc (ssteps s before)) name) eqn:L; [left; now apply A'|now right; left].
Qed.

(** temporary_env. *)
Lemma set_env s n e : in_env s n -> dmem (s_vars s n) t_env = false ->
  scope_set s t_env (VEnv e) = (set_loc (link s e) (dset (s_loc s) t_env (VEnv e)), Ok tt).
Proof.
  intros E D. unfold scope_set. change (text_eqb t_env t_under) with false. cbn match. rewrite teq_refl. unfold current. cbn [s_loc link]. rewrite E.
  cbn [s_vars link]. rewrite D. reflexivity.
Qed.
Lemma set_env_in s n e : in_env s n -> dmem (s_vars s n) t_env = false -> in_env (fst (scope_set s t_env (VEnv e))) e.
Proof.
  intros E D. rewrite (set_env s n) by assumption. unfold in_env. cbn [fst s_loc set_loc]. rewrite dget_dset. cbn [keqb Key_text]. now rewrite teq_refl.
Qed.
Lemma temporary_result s self n e body m : s_linked s self = true -> in_env s n -> dmem (s_vars s n) t_env = false ->
  let s1 := fst (scope_set s t_env (VEnv e)) in
  in_env (body s1) m -> dmem (s_vars (body s1) m) t_env = false ->
  in_env s1 e /\ exists s', temporary_env s self e body = (s', Ok tt) /\ in_env s' self.
Proof.
  intros L E D s1 M F. pose proof (set_env_in s n e E D) as X. split; [exact X|]. unfold temporary_env. rewrite L. cbn [negb].
  subst s1. rewrite (set_env s n) in * by assumption. cbn [fst] in *. pose proof (set_env_in _ _ self M F) as Y.
  rewrite (set_env _ m) in * by assumption. cbn [fst] in Y. eexists. split; [reflexivity|exact Y].
Qed.
