(** All the jobs at once. *)
From Verif Require Import Py RedirModel Os PerformModel PerformSpec RunModel RunSpec RunTopSpec RunEnds IterModel IterSpec FileModel FileSpec FileProofs NetModel NetSpec NetProofs ManyProofs JobModel JobSpec JobTop BgModel BgSpec BgProofs.
Import NetModel.

Definition on (q : path) (h : list (nat * (path * N))) : list (nat * N) :=
  flat_map (fun e => if path_eqb q (fst (snd e)) then [(fst e, snd (snd e))] else []) h.
Lemma on_app q h h' : on q (h ++ h') = on q h ++ on q h'.
Proof. apply flat_map_app. Qed.
Lemma by_job_app k m m' : by_job k (m ++ m') = by_job k m ++ by_job k m'.
Proof. unfold by_job. now rewrite filter_app, map_app. Qed.
Lemma on_lt q n h : Forall (fun e => fst e < n) h -> Forall (fun e => fst e < n) (on q h).
Proof.
  intros F. apply Forall_forall. intros x Hx. apply in_flat_map in Hx as (e & He & Hx). rewrite Forall_forall in F. specialize (F e He).
  destruct (path_eqb q _); [|destruct Hx]. destruct Hx as [<-|[] ]. exact F.
Qed.
Lemma by_job_none k m : Forall (fun e => fst e < k) m -> by_job k m = [].
Proof.
  induction 1 as [|e m H F IH]; [reflexivity|]. unfold by_job in *. cbn. destruct (Nat.eqb_spec (fst e) k); [lia|exact IH].
Qed.

(** The labels of job k in a schedule. *)
Definition of_job (k : nat) (ls : list blabel) : list jlabel :=
  flat_map (fun l => match l with BStep k' l' => if Nat.eqb k' k then [l'] else [] | BStart _ => [] end) ls.
Lemma of_job_app k ls ls' : of_job k (ls ++ ls') = of_job k ls ++ of_job k ls'.
Proof. apply flat_map_app. Qed.

Section All.
  Variable L : limits.
  Variables logfd maxfd cap : nat.
  Variable Logs : path -> Prop.
  Variable f0 : fs.
  Notation sees a := (map (item_sees L logfd maxfd) (k_its a)).
  Definition good (a : task) : Prop :=
    (forall i p fl, nth i (sees a) (fun _ => None) 0 = Some (OFile p fl) -> ~ Logs p /\ fl = O_RDONLY) /\
    (forall i p fl, nth i (sees a) (fun _ => None) 1 = Some (OFile p fl) -> Logs p /\ appending fl).
  Definition entry (k : nat) (e : option (path * N)) : list (nat * (path * N)) := match e with Some x => [(k, x)] | None => [] end.
  Definition alone (a : task) (k : nat) (h : list (nat * (path * N))) (ls : list jlabel) (f : fs) (t t' : job) : Prop :=
    exists fk, grows Logs f0 fk /\ ran L logfd maxfd cap (k_s a) (k_s' a) (k_its a) fk (k_progs a) (k_typed a) ls t' /\
    rel Logs (fun q => by_job k (on q h)) fk f t t'.
  Record inv (y : sys) (h : list (nat * (path * N))) (dn : list blabel) : Prop := mkInv {
    i_old : forall q, old_content (y_fs y) q = old_content f0 q ++ map snd (on q h);
    i_grows : grows Logs f0 (y_fs y);
    i_lt : Forall (fun e => fst e < List.length (y_jobs y)) h;
    i_none : forall k, List.length (y_jobs y) <= k -> of_job k dn = [];
    i_jobs : forall k a t, nth_error (y_jobs y) k = Some (a, t) -> good a /\ exists t', alone a k h (of_job k dn) (y_fs y) t t' }.
  Lemma inv_idle : inv (idle f0) [] [].
  Proof. constructor; cbn; auto. - intros q. now rewrite app_nil_r. - apply grows_refl. - intros [|k] a t E; discriminate. Qed.
  Lemma on_entry q k e : map snd (on q (entry k e)) = plus (fun _ => []) e q.
  Proof. destruct e as [[p b]|]; cbn; [|reflexivity]. unfold plus. destruct (path_eqb q p); reflexivity. Qed.
  Lemma by_entry q k h e : by_job k (on q (h ++ entry k e)) = plus (fun q => by_job k (on q h)) e q.
  Proof.
    rewrite on_app, by_job_app. unfold plus. f_equal. destruct e as [[p b]|]; cbn; [|reflexivity]. destruct (path_eqb q p); cbn; [|reflexivity].
    unfold by_job. cbn. now rewrite Nat.eqb_refl.
  Qed.
  Lemma by_entry_other q k k' h e : k' <> k -> by_job k' (on q (h ++ entry k e)) = by_job k' (on q h).
  Proof.
    intros Ne. rewrite on_app, by_job_app. destruct e as [[p b]|]; cbn; [|now rewrite app_nil_r]. destruct (path_eqb q p); cbn; [|now rewrite app_nil_r].
    unfold by_job at 2. cbn. destruct (Nat.eqb_spec k k'); [congruence|]. cbn. now rewrite app_nil_r.
  Qed.
  Lemma run_snoc s s' its t ls l t1 t2 : run_job L logfd maxfd cap s s' its t ls = Some t1 ->
    jstep (s_np s) cap (proc_fds logfd maxfd) (map (item_sees L logfd maxfd) its) (s_tab s') t1 l = Some t2 ->
    run_job L logfd maxfd cap s s' its t (ls ++ [l]) = Some t2.
  Proof.
    unfold run_job. revert t. induction ls as [|x ls IH]; cbn; intros t E1 E2.
    - injection E1 as ->. now rewrite E2.
    - destruct (jstep _ _ _ _ _ t x); [now apply IH|discriminate].
  Qed.
  Lemma inv_task y h dn k a t t' l : inv y h dn -> nth_error (y_jobs y) k = Some (a, t) -> alone a k h (of_job k dn) (y_fs y) t t' ->
    match bstep L logfd maxfd cap y (BStep k l), task_step L logfd maxfd cap a t' l with
    | Some y1, Some t1' => exists e t1, y_jobs y1 = set_nth (y_jobs y) k (a, t1) /\ inv y1 (h ++ entry k e) (dn ++ [BStep k l]) /\ alone a k (h ++ entry k e) (of_job k (dn ++ [BStep k l])) (y_fs y1) t1 t1'
    | None, None => True
    | _, _ => False
    end.
  Proof.
    intros [IO IG IL IN IJ] En (fk & Gk & R & Rel). destruct (IJ k a t En) as ((G1 & G2) & _).
    pose proof (beside_step (s_np (k_s a)) cap (proc_fds logfd maxfd) (sees a) (s_tab (k_s' a)) Logs G1 G2 _ _ _ _ _ l Rel) as X.
    cbn [bstep]. rewrite En. unfold task_step. unfold answer in X.
    destruct (jstep _ cap _ _ _ (with_fs (y_fs y) t) l) as [t1|], (jstep _ cap _ _ _ t' l) as [t1'|] eqn:Es; try contradiction; [|exact Logic.I].
    destruct X as (e & X1 & X2 & X3).
    assert (Lt : k < List.length (y_jobs y)) by (apply nth_error_Some; congruence).
    assert (Same : of_job k (dn ++ [BStep k l]) = of_job k dn ++ [l]) by (rewrite of_job_app; cbn; now rewrite Nat.eqb_refl).
    assert (Other : forall k2, k2 <> k -> of_job k2 (dn ++ [BStep k l]) = of_job k2 dn) by (intros k2 Ne; rewrite of_job_app; cbn; destruct (Nat.eqb_spec k k2); [congruence|apply app_nil_r]).
    assert (AL : alone a k (h ++ entry k e) (of_job k (dn ++ [BStep k l])) (j_fs t1) t1 t1').
    { exists fk. split; [exact Gk|]. split.
      - destruct R as (t0 & R1 & R2). rewrite Same. exists t0. split; [exact R1|]. exact (run_snoc _ _ _ _ _ _ _ _ R2 Es).
      - eapply rel_ext; [|exact X1]. intros q. symmetry. apply by_entry. }
    exists e, t1. cbn [y_jobs y_fs]. split; [reflexivity|]. split; [|exact AL].
    assert (Ls : List.length (set_nth (y_jobs y) k (a, t1)) = List.length (y_jobs y)).
    { clear. generalize (y_jobs y). intros l. revert k. induction l as [|x l IH]; destruct k; cbn; auto. }
    constructor; cbn [y_jobs y_fs].
    - intros q. rewrite X3, IO, on_app, map_app, on_entry. now rewrite app_assoc.
    - apply (grows_trans Logs f0 (y_fs y)); assumption.
    - rewrite Ls. apply Forall_app. split; [exact IL|]. destruct e; cbn; auto.
    - rewrite Ls. intros k2 Hk. rewrite Other by lia. now apply IN.
    - intros k2 a2 t2 E2. rewrite nth_error_set_nth in E2 by exact Lt. destruct (Nat.eqb_spec k2 k) as [->|Ne].
      + injection E2 as <- <-. split; [now split|]. now exists t1'.
      + destruct (IJ k2 a2 t2 E2) as (Ga & t2' & fk2 & A1 & A2 & A3). split; [exact Ga|]. rewrite Other by exact Ne. exists t2', fk2. split; [exact A1|]. split; [exact A2|].
        eapply rel_grows; [exact X2|]. eapply rel_ext; [|exact A3]. intros q. symmetry. now apply by_entry_other.
  Qed.
  Lemma inv_start y h dn a y1 : inv y h dn -> good a -> bstep L logfd maxfd cap y (BStart a) = Some y1 -> inv y1 h (dn ++ [BStart a]).
  Proof.
    intros [IO IG IL IN IJ] Ga E. assert (Same : forall k, of_job k (dn ++ [BStart a]) = of_job k dn) by (intros k; rewrite of_job_app; cbn; apply app_nil_r). cbn in E. destruct (begin_job _ _ _ _ _ _ _) as [j|] eqn:Eb; [|discriminate]. injection E as <-.
    pose proof Eb as Eb0. unfold begin_job in Eb. destruct Ga as (G1 & G2). apply fresh_start with (Logs := Logs) in Eb as (R & Gr & Old); [|exact G1|exact G2].
    constructor; cbn [y_jobs y_fs].
    - intros q. now rewrite Old.
    - apply (grows_trans Logs f0 (y_fs y)); assumption.
    - eapply Forall_impl; [|exact IL]. intros e. cbn. rewrite app_length. cbn. lia.
    - intros k Hk. rewrite app_length in Hk. rewrite Same. apply IN. lia.
    - intros k2 a2 t2 E2. rewrite Same. destruct (Nat.lt_ge_cases k2 (List.length (y_jobs y))) as [Lt|Ge].
      + rewrite nth_error_app1 in E2 by exact Lt. destruct (IJ k2 a2 t2 E2) as (Ga & t2' & fk2 & A1 & A2 & A3). split; [exact Ga|].
        exists t2', fk2. split; [exact A1|]. split; [exact A2|]. eapply rel_grows; [exact Gr|exact A3].
      + rewrite nth_error_app2 in E2 by exact Ge. destruct (k2 - List.length (y_jobs y)) as [|z] eqn:Ek; cbn in E2; [|destruct z; discriminate].
        injection E2 as <- <-. split; [now split|]. exists j, (y_fs y). split; [exact IG|]. split.
        * rewrite IN by exact Ge. exists j. split; [exact Eb0|reflexivity].
        * eapply rel_ext; [|exact R]. intros q. symmetry. apply by_job_none. apply on_lt. eapply Forall_impl; [|exact IL]. cbn. intros; lia.
  Qed.
  Lemma inv_steps : forall ls y h dn y1, inv y h dn -> Forall good (tasks_of ls) -> bsteps L logfd maxfd cap y ls = Some y1 ->
    (exists h1, inv y1 h1 (dn ++ ls)) /\ map fst (y_jobs y1) = map fst (y_jobs y) ++ tasks_of ls.
  Proof.
    induction ls as [|l ls IH]; intros y h dn y1 I G E; cbn [bsteps] in E.
    - injection E as <-. split; [exists h; now rewrite app_nil_r|]. cbn. now rewrite app_nil_r.
    - destruct (bstep L logfd maxfd cap y l) as [y2|] eqn:E2; [|discriminate]. destruct l as [a|k l].
      + inversion G as [|? ? Ga Gr]; subst. destruct (IH y2 h _ y1 (inv_start y h dn a y2 I Ga E2) Gr E) as (A & B). rewrite <- app_assoc in A. split; [exact A|].
        rewrite B. cbn in E2. destruct (begin_job _ _ _ _ _ _ _); [|discriminate]. injection E2 as <-. cbn. rewrite map_app, <- app_assoc. reflexivity.
      + destruct (nth_error (y_jobs y) k) as [[a t]|] eqn:En; [|cbn in E2; rewrite En in E2; discriminate].
        destruct (i_jobs y h dn I k a t En) as (_ & t' & A). pose proof (inv_task y h dn k a t t' l I En A) as X. rewrite E2 in X.
        destruct (task_step _ _ _ _ a t' l); [|contradiction]. destruct X as (e & t1 & X1 & X2 & _).
        destruct (IH y2 _ _ y1 X2 G E) as (P & Q). rewrite <- app_assoc in P. split; [exact P|]. rewrite Q, X1. cbn [tasks_of]. f_equal.
        revert En. clear. generalize (y_jobs y). intros l. revert k. induction l as [|x l IH]; destruct k; cbn; try discriminate; intros E.
        * injection E as ->. reflexivity.
        * f_equal. now apply IH.
  Qed.
  (** What a job can do alone it can do beside the others. *)
  Lemma inv_follow a k : forall ls y h dn t t' t2, inv y h dn -> nth_error (y_jobs y) k = Some (a, t) -> alone a k h (of_job k dn) (y_fs y) t t' ->
    run_job L logfd maxfd cap (k_s a) (k_s' a) (k_its a) t' ls = Some t2 ->
    exists y2 h2 dn2 t3, bsteps L logfd maxfd cap y (map (BStep k) ls) = Some y2 /\ inv y2 h2 dn2 /\ nth_error (y_jobs y2) k = Some (a, t3) /\ j_wait t3 = j_wait t2 /\
      (forall k', k' <> k -> nth_error (y_jobs y2) k' = nth_error (y_jobs y) k') /\ List.length (y_jobs y2) = List.length (y_jobs y).
  Proof.
    induction ls as [|l ls IH]; intros y h dn t t' t2 I En A E.
    - cbn in E. injection E as <-. exists y, h, dn, t. destruct A as (fk & _ & _ & R). pose proof (e_wait _ _ _ _ _ _ R). split; [reflexivity|]. split; [exact I|]. auto.
    - unfold run_job in E. cbn in E. destruct (jstep _ cap _ _ _ t' l) as [t1'|] eqn:Es; [|discriminate].
      pose proof (inv_task y h dn k a t t' l I En A) as X. unfold task_step in X. rewrite Es in X.
      cbn [map bsteps]. destruct (bstep L logfd maxfd cap y (BStep k l)) as [y1|] eqn:Eb in X |- *; [|contradiction].
      destruct X as (e & t1 & X1 & X2 & X3). assert (Lt : k < List.length (y_jobs y)) by (apply nth_error_Some; congruence).
      assert (En1 : nth_error (y_jobs y1) k = Some (a, t1)) by (rewrite X1, nth_error_set_nth, Nat.eqb_refl by exact Lt; reflexivity).
      destruct (IH y1 _ _ t1 t1' t2 X2 En1 X3 E) as (y2 & h2 & dn2 & t3 & B1 & B2 & B3 & B4 & B5 & B6). exists y2, h2, dn2, t3. split; [exact B1|]. split; [exact B2|]. split; [exact B3|]. split; [exact B4|]. split.
      + intros k' Ne. rewrite B5, X1, nth_error_set_nth by assumption. destruct (Nat.eqb_spec k' k); [congruence|reflexivity].
      + rewrite B6, X1. clear. generalize (y_jobs y). intros l. revert k. induction l as [|x l IH]; destruct k; cbn; auto.
  Qed.
End All.

(** A task as planned is one of those. *)
Lemma planned_good L pf logfd maxfd f0 a g (Logs : path -> Prop) : as_planned L pf logfd maxfd f0 a g ->
  (forall p, logs_to g p -> Logs p) -> (forall p, takes_from g p -> ~ Logs p) -> good L logfd maxfd Logs a.
Proof.
  intros (HL & _ & _ & _ & Ap) H1 H2. destruct (job_facts L pf logfd maxfd _ _ _ _ _ _ _ HL) as (o0 & o1 & E0 & E1 & Li & F & _).
  destruct HL as (_ & _ & _ & _ & NoF & HI & HO & _).
  assert (Far : forall i m, List.length (g_cs g) < i -> nth i (map (item_sees L logfd maxfd) (k_its a)) (fun _ => None) m = None).
  { intros i m Hi. rewrite nth_overflow; [reflexivity|]. rewrite map_length, Li. lia. }
  split; intros i p fl Es; (destruct (Nat.le_gt_cases i (List.length (g_cs g))) as [Le|Gt]; [|rewrite Far in Es by exact Gt; discriminate]); destruct (F i Le) as (F0 & F1 & _).
  - rewrite F0 in Es. destruct i as [|i]; [|discriminate]. unfold end_ofd in Es. destruct (g_inr g) as [r|] eqn:Er.
    + destruct (HI r eq_refl) as (p' & X1 & X2 & X3 & X4). rewrite X2 in Es. injection Es as <- <-. split; [|exact X4]. apply H2. exists r. auto.
    + injection Es as ->. exfalso. exact (NoF 0 p fl E0).
  - rewrite F1 in Es. destruct (Nat.eqb i _); [|discriminate]. unfold end_ofd in Es. destruct (g_outr g) as [r|] eqn:Er.
    + destruct (HO r eq_refl) as (p' & X1 & X2 & _). rewrite X2 in Es. injection Es as <- <-. split; [apply H1; exists r; auto|now apply Ap].
    + injection Es as ->. exfalso. exact (NoF 1 p fl E1).
Qed.
