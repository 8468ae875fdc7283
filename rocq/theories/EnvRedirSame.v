(** Lemmas for C114: an environment's defaults are the same as redirecting. *)
From Verif Require Import Py RedirModel RedirSpec RedirProofs Os PerformModel RunModel RunSpec RunTopSpec RunPre RunFinal EnvRedirModel EnvRedirSpec EnvRedirProofs EnvRedirTop.

Definition set1 (d : redirects) (r : redirect) : redirects := dset d (r_fd r) r.
Lemma dset_twice : forall (d : redirects) k x y, dset (dset d k x) k y = dset d k y.
Proof.
  induction d as [|[k0 v0] d IH]; intros k x y; cbn; [now rewrite Nat.eqb_refl|].
  destruct (Nat.eqb_spec k k0) as [->|Ne]; cbn; [now rewrite Nat.eqb_refl|]. destruct (Nat.eqb_spec k k0); [contradiction|]. now rewrite IH.
Qed.
Lemma dset_swap : forall (d : redirects) k k' x y, k <> k' -> dget d k <> None -> dset (dset d k' y) k x = dset (dset d k x) k' y.
Proof.
  induction d as [|[k0 v0] d IH]; intros k k' x y Ne Hk; cbn in *; [congruence|].
  destruct (Nat.eqb_spec k k0) as [->|N1], (Nat.eqb_spec k' k0) as [->|N2]; cbn.
  - contradiction.
  - rewrite Nat.eqb_refl. destruct (Nat.eqb_spec k' k0); [contradiction|reflexivity].
  - destruct (Nat.eqb_spec k k0); [contradiction|]. now rewrite Nat.eqb_refl.
  - destruct (Nat.eqb_spec k k0); [contradiction|]. destruct (Nat.eqb_spec k' k0); [contradiction|]. now rewrite IH.
Qed.
Lemma dset_in (d : redirects) k k' x : dget d k <> None -> dget (dset d k' x) k <> None.
Proof. intros H. rewrite dget_dset. cbn. destruct (Nat.eqb k k'); [discriminate|exact H]. Qed.
Lemma dset_over : forall (c : redirects) k x r d, Forall (fun kr => r_fd (snd kr) = fst kr /\ fst kr <> k) c -> dget d k <> None ->
  dset (fold_left set1 (dvals c) d) k r = fold_left set1 (dvals c) (dset (dset d k x) k r).
Proof.
  induction c as [|[k0 r0] c IH]; intros k x r d F Hk; [cbn; now rewrite dset_twice|]. change (dvals ((k0, r0) :: c)) with (r0 :: dvals c). cbn [fold_left]. inversion F as [|? ? [E1 E2] F']; subst. cbn in E1, E2.
  rewrite (IH k x r (set1 d r0) F') by (now apply dset_in). f_equal. unfold set1. rewrite !dset_twice. apply dset_swap; [rewrite E1; congruence|exact Hk].
Qed.
Lemma fold_dset_table : forall (c : redirects) k r d, NoDup (dkeys c) -> Forall (fun kr => r_fd (snd kr) = fst kr) c -> r_fd r = k ->
  fold_left set1 (dvals (dset c k r)) d = dset (fold_left set1 (dvals c) d) k r.
Proof.
  induction c as [|[k0 r0] c IH]; intros k r d Nd F Er; cbn; [unfold set1; now rewrite Er|].
  inversion Nd as [|? ? Nk Nd']; subst. inversion F as [|? ? E0 F']; subst. cbn in E0. destruct (Nat.eqb_spec (r_fd r) k0) as [E|Ne]; cbn.
  - change (map snd c) with (dvals c). rewrite (dset_over c (r_fd r) r r (set1 d r0)).
    + f_equal. unfold set1. rewrite dset_twice. rewrite E0, <- E. now rewrite dset_twice.
    + rewrite Forall_forall in *. intros [k1 r1] Hin. split; [now apply F'|]. cbn. intros ->. apply Nk. rewrite <- E. apply in_map_iff. now exists (r_fd r, r1).
    + unfold set1. rewrite dget_dset. cbn. rewrite E0, E, Nat.eqb_refl. discriminate.
  - now apply IH.
Qed.
Lemma fold_set1_ok l : NoDup (dkeys (fold_left set1 l [])) /\ Forall (fun kr => r_fd (snd kr) = fst kr) (fold_left set1 l []).
Proof.
  induction l as [|r l [A B]] using rev_ind; [split; constructor|]. rewrite fold_left_app. cbn. split; [now apply dset_NoDup|].
  rewrite Forall_forall in *. intros [k x] Hin. unfold set1 in Hin. apply In_dset in Hin as [[-> ->]|[_ Hin]]; [reflexivity|now apply B|exact A].
Qed.
Lemma fold_set1_table l d : fold_left set1 (dvals (fold_left set1 l [])) d = fold_left set1 l d.
Proof.
  induction l as [|r l IH] using rev_ind; [reflexivity|]. rewrite !fold_left_app. cbn [fold_left]. destruct (fold_set1_ok l) as [A B].
  change (set1 (fold_left set1 l []) r) with (dset (fold_left set1 l []) (r_fd r) r). rewrite fold_dset_table; auto. now rewrite IH.
Qed.
Definition real (r : redirect) : Prop := r_source r <> SNone.
Lemma fold_plus_real l : Forall real l -> forall rs, fold_left plus l rs = fold_left set1 l rs.
Proof. induction 1 as [|r l H _ IH]; intros rs; [reflexivity|]. cbn. rewrite IH. unfold plus. now rewrite register_ok. Qed.
Lemma wf_set1 l : Forall real l -> forall rs, wf_redirects rs -> wf_redirects (fold_left set1 l rs).
Proof. induction 1 as [|r l H _ IH]; intros rs W; [exact W|]. cbn. apply IH. now apply wf_dset. Qed.
Lemma real_vals l : Forall real l -> Forall real (dvals (fold_left set1 l [])).
Proof.
  intros F. induction l as [|r l IH] using rev_ind; [constructor|]. apply Forall_app in F as [F1 F2]. inversion F2; subst. specialize (IH F1). rewrite fold_left_app. cbn.
  rewrite Forall_forall in *. intros x Hx. apply dset_values in Hx as [->|Hx]; [assumption|]. now apply IH.
Qed.
Lemma env_is_redirecting L pf l p s : Forall real l ->
  run_top L pf (fold_left plus l standard) [] p s = start L pf false (PRedir p (fold_left plus l [])) s.
Proof.
  intros F. unfold start. change default_redirects with (Ok standard). unfold run_top. cbn [map].
  pose proof (copy_redirects _ wf_def) as C1. rewrite <- standard_def in C1.
  assert (W : wf_redirects (fold_left plus l standard)) by (rewrite fold_plus_real by exact F; apply wf_set1; [exact F|exact wf_def]).
  rewrite (copy_redirects _ W). unfold rbind, rlift, rret. cbn beta iota. rewrite C1. cbn [run]. unfold rbind, rlift. unfold merge, new_redirects. cbn [new_redirects_from].
  unfold new_redirects in C1. cbn [new_redirects_from] in C1. destruct (register_all [] standard) as [x|er] eqn:E; cbn in C1; [|discriminate]. injection C1 as ->. cbn [bind_res].
  unfold register_all. rewrite (fold_plus_real l F []). destruct (register_list_ok (dvals (fold_left set1 l [])) standard (real_vals l F)) as (rs' & E1 & E2).
  rewrite E1. cbn. rewrite E2. change (fun (d : redirects) (r : redirect) => dset d (r_fd r) r) with set1. rewrite fold_set1_table. rewrite (fold_plus_real l F). reflexivity.
Qed.

Lemma merge_real d crs : wf_redirects d -> Forall real (dvals crs) -> merge d crs = Ok (fold_left set1 (dvals crs) d).
Proof.
  intros W F. unfold merge, new_redirects. cbn [new_redirects_from]. pose proof (copy_redirects d W) as C. unfold new_redirects in C. cbn [new_redirects_from] in C.
  destruct (register_all [] d) as [x|er]; cbn in C; [|discriminate]. injection C as ->. cbn [bind_res]. unfold register_all.
  destruct (register_list_ok (dvals crs) d F) as (rs' & E1 & E2). rewrite E1. cbn. now rewrite E2.
Qed.
(** A pipeline's own redirects are registered after those of its environment. *)
Lemma env_then_own L pf l p crs s : Forall real l -> Forall real (dvals crs) ->
  run_top L pf (fold_left plus l standard) [] (PRedir p crs) s = run_top L pf (fold_left plus (l ++ dvals crs) standard) [] p s.
Proof.
  intros F1 F2. unfold run_top. cbn [map].
  assert (W : wf_redirects (fold_left plus l standard)) by (rewrite fold_plus_real by exact F1; apply wf_set1; [exact F1|exact wf_def]).
  assert (F : Forall real (l ++ dvals crs)) by (apply Forall_app; now split).
  assert (W' : wf_redirects (fold_left plus (l ++ dvals crs) standard)) by (rewrite fold_plus_real by exact F; apply wf_set1; [exact F|exact wf_def]).
  rewrite (copy_redirects _ W), (copy_redirects _ W'). unfold rbind, rlift, rret. cbn beta iota. cbn [run]. unfold rbind, rlift.
  rewrite (merge_real _ crs W F2). rewrite (fold_plus_real _ F), fold_left_app, <- (fold_plus_real l F1). reflexivity.
Qed.
