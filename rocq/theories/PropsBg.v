(** C116: pipelines that run at the same time and log to the same file. *)
From Verif Require Import Py RedirModel Os PerformModel PerformSpec RunModel RunSpec RunTopSpec RunEnds IterModel IterSpec FileModel FileSpec FileProofs NetModel NetSpec NetProofs NetTop JobModel JobSpec JobTop JobProofs JobMain PropsFile PropsRun PropsNet PropsJob RunStarted BgModel BgSpec BgProofs BgMain.

Lemma F2_at {A B} (R : A -> B -> Prop) l l' : Forall2 R l l' -> forall k y, nth_error l' k = Some y -> exists x, nth_error l k = Some x /\ R x y.
Proof. induction 1 as [|x y l l' H F IH]; intros [|k] z E; try discriminate; [injection E as <-; now exists x|now apply IH]. Qed.
Section Bg.
  Variable L : limits.
  Variable pf : ofd -> bool.
  Variables logfd maxfd cap : nat.
  Variable f0 : fs.
  Variable ls : list blabel.
  Variable y : sys.
  Variable gs : list plan.
  Hypothesis HP : all_planned L pf logfd maxfd f0 ls gs.
  Hypothesis HR : bsteps L logfd maxfd cap (idle f0) ls = Some y.
  Notation Logs := (fun p => exists g, In g gs /\ logs_to g p).
  Lemma bg_good : Forall (good L logfd maxfd Logs) (tasks_of ls).
  Proof.
    destruct HP as [F X]. apply Forall_forall. intros a Ha.
    assert (exists g, In g gs /\ as_planned L pf logfd maxfd f0 a g) as (g & Hg & Hp).
    { revert Ha. clear - F. induction F as [|x y l l' H F IH]; intros []; [subst; exists y; split; [now left|assumption]|]. destruct (IH H0) as (g & A & B). exists g. split; [now right|exact B]. }
    eapply planned_good; [exact Hp| |].
    - intros p Hl. now exists g.
    - intros p Ht (g' & Hg' & Hl). exact (X g g' p Hg Hg' Ht Hl).
  Qed.
  Lemma bg_inv : exists h, inv L logfd maxfd cap Logs f0 y h ls /\ map fst (y_jobs y) = tasks_of ls.
  Proof.
    destruct (inv_steps L logfd maxfd cap Logs f0 ls (idle f0) [] [] y (inv_idle L logfd maxfd cap Logs f0) bg_good HR) as ((h & I) & M). exists h. auto.
  Qed.
  Lemma bg_solo h k g a t : inv L logfd maxfd cap Logs f0 y h ls -> map fst (y_jobs y) = tasks_of ls ->
    nth_error gs k = Some g -> nth_error (y_jobs y) k = Some (a, t) ->
    as_planned L pf logfd maxfd f0 a g /\ exists fk ls' t', ls' = of_job k ls /\ ran L logfd maxfd cap (k_s a) (k_s' a) (k_its a) fk (k_progs a) (k_typed a) ls' t' /\
      input_is fk (g_inr g) (k_typed a) (g_inp g) /\ rel Logs (fun q => by_job k (on q h)) fk (y_fs y) t t'.
  Proof.
    intros I M Eg Ej. destruct HP as [F X]. destruct (F2_at _ _ _ F k g Eg) as (a2 & Ea & Hp).
    assert (a2 = a) as -> by (rewrite <- M, nth_error_map, Ej in Ea; injection Ea as <-; reflexivity).
    split; [exact Hp|]. destruct (i_jobs _ _ _ _ _ _ _ _ _ I k a t Ej) as (_ & t' & fk & (G1 & G2) & R & Rl). exists fk, (of_job k ls), t'. split; [reflexivity|]. split; [exact R|]. split; [|exact Rl].
    destruct Hp as (_ & _ & Hi & _). unfold input_is in *. destruct (g_inr g) as [r|] eqn:Er; [|exact Hi].
    destruct Hi as (p & Sp & Fp). exists p. split; [exact Sp|]. rewrite G2; [exact Fp|]. intros (g' & Hg' & Hl). refine (X g g' p (nth_error_In _ _ Eg) Hg' _ Hl). exists r. auto.
  Qed.
End Bg.
Lemma gone_same Logs h fk f t t' : rel Logs h fk f t t' -> all_gone t -> all_gone t'.
Proof. intros R G i. rewrite <- (e_procs _ _ _ _ _ _ R). apply G. Qed.

(** Each log file holds, after what was in it before, an interleaving of the outputs of
    the pipelines that log there, complete for each pipeline that is done: nothing is lost,
    torn apart within one pipeline, or overwritten, whenever the pipelines were started
    and however they were scheduled. *)
Theorem C116_log : forall L pf logfd maxfd cap f0 ls y gs p,
  all_planned L pf logfd maxfd f0 ls gs -> 0 < cap -> bsteps L logfd maxfd cap (idle f0) ls = Some y ->
  exists m, old_content (y_fs y) p = old_content f0 p ++ map snd m /\
    Forall (fun e => fst e < List.length gs) m /\
    forall k g a t, nth_error gs k = Some g -> nth_error (y_jobs y) k = Some (a, t) ->
      (logs_to g p -> prefix (by_job k m) (g_out g) /\ (all_gone t -> by_job k m = g_out g)) /\
      (~ logs_to g p -> by_job k m = []).
Proof.
  intros L pf logfd maxfd cap f0 ls y gs p HP Hc HR. destruct (bg_inv L pf logfd maxfd cap f0 ls y gs HP HR) as (h & I & M).
  exists (on p h). split; [apply I|]. split.
  - apply on_lt. pose proof (i_lt _ _ _ _ _ _ _ _ _ I) as X. replace (List.length gs) with (List.length (y_jobs y)); [exact X|].
    rewrite <- (map_length fst), M. apply (F2_length _ _ _ (proj1 HP)).
  - intros k g a t Eg Ej. destruct (bg_solo L pf logfd maxfd cap f0 ls y gs HP h k g a t I M Eg Ej) as ((HL & Hl & _ & Ha & Ap) & fk & ls' & t' & _ & R & Hi & Rl).
    pose proof (e_hist _ _ _ _ _ _ Rl p) as Eh.
    destruct (g_outr g) as [r|] eqn:Er.
    + assert (exists q, r_source r = SPath q) as (q & Sq) by (destruct HL as (_ & _ & _ & _ & _ & _ & HO & _); destruct (HO r eq_refl) as (q & _ & E & _); now exists q).
      destruct (C100_append L pf logfd maxfd _ _ _ r q _ _ _ fk _ _ _ cap _ ls' t' HL Sq (Ap r eq_refl) Hl Hi Ha Hc R) as ((w & W1 & W2 & W3) & W4 & _).
      split.
      * intros (r' & Er' & Sp). rewrite Er in Er'. injection Er' as <-. rewrite Sp in Sq. injection Sq as <-.
        rewrite W3 in Eh. apply app_inv_head in Eh. rewrite <- Eh. split; [exact W1|]. intros G. apply W2. exact (gone_same _ _ _ _ _ _ Rl G).
      * intros N. assert (Np : p <> q) by (intros ->; apply N; exists r; auto). unfold old_content in Eh. rewrite (W4 p Np) in Eh.
        rewrite <- (app_nil_r (match fk p with _ => _ end)) in Eh at 1. apply app_inv_head in Eh. now symmetry.
    + destruct (C101_shown L pf logfd maxfd _ _ _ _ _ _ fk _ _ _ cap _ ls' t' HL Hl Hi Ha Hc R) as (o1 & w & _ & _ & _ & _ & E). split.
      * intros (r' & Er' & _). congruence.
      * intros _. rewrite E in Eh. rewrite <- (app_nil_r (old_content fk p)) in Eh at 1. apply app_inv_head in Eh. now symmetry.
Qed.
Print Assumptions C116_log.
(** No other file is changed. *)
Theorem C116_others : forall L pf logfd maxfd cap f0 ls y gs p,
  all_planned L pf logfd maxfd f0 ls gs -> bsteps L logfd maxfd cap (idle f0) ls = Some y ->
  (forall g, In g gs -> ~ logs_to g p) -> y_fs y p = f0 p.
Proof.
  intros L pf logfd maxfd cap f0 ls y gs p HP HR N. destruct (bg_inv L pf logfd maxfd cap f0 ls y gs HP HR) as (h & I & M).
  apply I. intros (g & Hg & Hl). exact (N g Hg Hl).
Qed.
Print Assumptions C116_others.
(** A pipeline whose output is not redirected shows its own output. *)
Theorem C116_shown : forall L pf logfd maxfd cap f0 ls y gs k g a t,
  all_planned L pf logfd maxfd f0 ls gs -> 0 < cap -> bsteps L logfd maxfd cap (idle f0) ls = Some y ->
  nth_error gs k = Some g -> nth_error (y_jobs y) k = Some (a, t) -> g_outr g = None ->
  exists o1 w, refers (s_tab (k_s a)) 1 = Some o1 /\ shown o1 t w /\ prefix w (g_out g) /\ (all_gone t -> w = g_out g).
Proof.
  intros L pf logfd maxfd cap f0 ls y gs k g a t HP Hc HR Eg Ej En. destruct (bg_inv L pf logfd maxfd cap f0 ls y gs HP HR) as (h & I & M).
  destruct (bg_solo L pf logfd maxfd cap f0 ls y gs HP h k g a t I M Eg Ej) as ((HL & Hl & _ & Ha & Ap) & fk & ls' & t' & _ & R & Hi & Rl). rewrite En in HL.
  destruct (C101_shown L pf logfd maxfd _ _ _ _ _ _ fk _ _ _ cap _ ls' t' HL Hl Hi Ha Hc R) as (o1 & w & A & B & C & D & _). exists o1, w. split; [exact A|]. split; [|split; [exact C|] ].
  - unfold shown in *. now rewrite (e_term _ _ _ _ _ _ Rl).
  - intros G. apply D. exact (gone_same _ _ _ _ _ _ Rl G).
Qed.
Print Assumptions C116_shown.
(** wait() on one of them ends only when all its processes have gone, whatever the others
    do, and raises or returns by what its own programs do. *)
Theorem C116_waits : forall L pf logfd maxfd cap f0 ls y gs k g a t,
  all_planned L pf logfd maxfd f0 ls gs -> 0 < cap -> bsteps L logfd maxfd cap (idle f0) ls = Some y ->
  nth_error gs k = Some g -> nth_error (y_jobs y) k = Some (a, t) -> j_wait t <> None -> all_gone t.
Proof.
  intros L pf logfd maxfd cap f0 ls y gs k g a t HP Hc HR Eg Ej W. destruct (bg_inv L pf logfd maxfd cap f0 ls y gs HP HR) as (h & I & M).
  destruct (bg_solo L pf logfd maxfd cap f0 ls y gs HP h k g a t I M Eg Ej) as ((HL & Hl & _ & Ha & Ap) & fk & ls' & t' & _ & R & Hi & Rl).
  intros i. rewrite (e_procs _ _ _ _ _ _ Rl). revert i. rewrite (e_wait _ _ _ _ _ _ Rl) in W.
  exact (C101_waits L pf logfd maxfd _ _ _ _ _ _ _ fk _ _ _ cap _ ls' t' HL Hl Hi Ha Hc R W).
Qed.
Print Assumptions C116_waits.
Theorem C116_verdict : forall L pf logfd maxfd cap f0 ls y gs k g a t oks,
  all_planned L pf logfd maxfd f0 ls gs -> 0 < cap -> bsteps L logfd maxfd cap (idle f0) ls = Some y ->
  nth_error gs k = Some g -> nth_error (y_jobs y) k = Some (a, t) -> all_do (k_progs a) (g_inp g) (g_out g) oks ->
  (Forall careful (k_progs a) -> In false oks -> j_wait t <> Some true) /\
  (others_read (k_progs a) (g_inp g) -> ~ In false oks -> j_wait t <> Some false).
Proof.
  intros L pf logfd maxfd cap f0 ls y gs k g a t oks HP Hc HR Eg Ej Hd. destruct (bg_inv L pf logfd maxfd cap f0 ls y gs HP HR) as (h & I & M).
  destruct (bg_solo L pf logfd maxfd cap f0 ls y gs HP h k g a t I M Eg Ej) as ((HL & Hl & _ & Ha & Ap) & fk & ls' & t' & _ & R & Hi & Rl).
  rewrite (e_wait _ _ _ _ _ _ Rl). split.
  - intros Hcr Hf. exact (C101_fails L pf logfd maxfd _ _ _ _ _ _ _ fk _ _ _ cap _ oks ls' t' HL Hl Hi Hd Hcr Hc Hf R).
  - intros Ho Hf. exact (C101_succeeds L pf logfd maxfd _ _ _ _ _ _ _ fk _ _ _ cap _ oks ls' t' HL Hl Hi Hd Ho Hc Hf R).
Qed.
Print Assumptions C116_verdict.
(** Wherever they are, all of them can be waited for. *)
Lemma bsteps_app L logfd maxfd cap : forall ls y y1 ls', bsteps L logfd maxfd cap y ls = Some y1 -> bsteps L logfd maxfd cap y (ls ++ ls') = bsteps L logfd maxfd cap y1 ls'.
Proof. induction ls as [|l ls IH]; cbn; intros y y1 ls' E; [now injection E as ->|]. destruct (bstep L logfd maxfd cap y l); [now apply IH|discriminate]. Qed.
Lemma tasks_app : forall ls ls', tasks_of (ls ++ ls') = tasks_of ls ++ tasks_of ls'.
Proof. induction ls as [|[a|k l] ls IH]; cbn; intros ls'; [reflexivity|now rewrite IH|apply IH]. Qed.
Lemma tasks_steps k ls : tasks_of (map (BStep k) ls) = [].
Proof. induction ls; auto. Qed.
Theorem C116_no_deadlock : forall L pf logfd maxfd cap f0 ls y gs,
  all_planned L pf logfd maxfd f0 ls gs -> 0 < cap -> bsteps L logfd maxfd cap (idle f0) ls = Some y ->
  Forall (fun a => Forall careful (k_progs a)) (tasks_of ls) ->
  exists ls' y', tasks_of ls' = [] /\ bsteps L logfd maxfd cap y ls' = Some y' /\ all_waited y'.
Proof.
  intros L pf logfd maxfd cap f0 ls y gs HP Hc HR Hcr.
  assert (Go : forall n, n <= List.length (y_jobs y) -> exists ls' y', tasks_of ls' = [] /\ bsteps L logfd maxfd cap y ls' = Some y' /\ List.length (y_jobs y') = List.length (y_jobs y) /\
    forall k a t, k < n -> nth_error (y_jobs y') k = Some (a, t) -> j_wait t <> None).
  { induction n as [|n IH]; intros Le; [exists [], y; repeat split; auto; intros; lia|].
    destruct IH as (l1 & y1 & T1 & R1 & Len & W1); [lia|].
    assert (HR1 : bsteps L logfd maxfd cap (idle f0) (ls ++ l1) = Some y1) by (rewrite (bsteps_app _ _ _ _ _ _ _ _ HR); exact R1).
    assert (HP1 : all_planned L pf logfd maxfd f0 (ls ++ l1) gs) by (unfold all_planned; rewrite tasks_app, T1, app_nil_r; exact HP).
    destruct (bg_inv L pf logfd maxfd cap f0 _ y1 gs HP1 HR1) as (h & I & M).
    destruct (nth_error (y_jobs y1) n) as [[a t]|] eqn:Ej; [|apply nth_error_None in Ej; lia].
    assert (Lg : List.length gs = List.length (y_jobs y1)) by (rewrite <- (map_length fst (y_jobs y1)), M; symmetry; apply (F2_length _ _ _ (proj1 HP1))).
    destruct (nth_error gs n) as [g|] eqn:Eg; [|apply nth_error_None in Eg; lia].
    destruct (bg_solo L pf logfd maxfd cap f0 _ y1 gs HP1 h n g a t I M Eg Ej) as ((HL & Hl & _ & Ha & Ap) & _).
    destruct (i_jobs _ _ _ _ _ _ _ _ _ I n a t Ej) as (_ & t' & Al). pose proof Al as (fk & (G1 & G2) & R & Rl).
    assert (Hi : input_is fk (g_inr g) (k_typed a) (g_inp g)).
    { destruct HP as [F X]. destruct (F2_at _ _ _ (proj1 HP1) n g Eg) as (a2 & Ea & Hp). assert (a2 = a) as -> by (rewrite <- M, nth_error_map, Ej in Ea; injection Ea as <-; reflexivity).
      destruct Hp as (_ & _ & Hi & _). unfold input_is in *. destruct (g_inr g) as [r|] eqn:Er; [|exact Hi].
      destruct Hi as (p & Sp & Fp). exists p. split; [exact Sp|]. rewrite G2; [exact Fp|]. intros (g' & Hg' & Hl'). refine (X g g' p (nth_error_In _ _ Eg) Hg' _ Hl'). exists r. auto. }
    assert (Ca : Forall careful (k_progs a)).
    { rewrite Forall_forall in Hcr. apply Hcr. apply nth_error_In with (n := n). rewrite tasks_app, T1, app_nil_r in M. rewrite <- M, nth_error_map, Ej. reflexivity. }
    destruct (C101_no_deadlock L pf logfd maxfd _ _ _ _ _ _ _ fk _ _ _ cap _ _ t' HL Hl Hi Ha Ca Hc R) as (l2 & t2 & R2 & W2).
    destruct (inv_follow L logfd maxfd cap _ f0 a n l2 y1 h _ t t' t2 I Ej Al R2) as (y2 & h2 & dn2 & t3 & B1 & _ & B3 & B4 & B5 & B6).
    exists (l1 ++ map (BStep n) l2), y2. split; [now rewrite tasks_app, T1, tasks_steps|]. split; [rewrite (bsteps_app _ _ _ _ _ _ _ _ R1); exact B1|]. split; [lia|].
    intros k a2 t4 Hk E4. destruct (Nat.eq_dec k n) as [->|Ne].
    - rewrite B3 in E4. injection E4 as <- <-. rewrite B4. exact W2.
    - rewrite B5 in E4 by exact Ne. apply (W1 k a2 t4); [lia|exact E4]. }
  destruct (Go (List.length (y_jobs y)) (le_n _)) as (ls' & y' & T & R & Len & W). exists ls', y'. split; [exact T|]. split; [exact R|].
  intros k a t E. apply (W k a t); [|exact E]. assert (k < List.length (y_jobs y')) by (apply nth_error_Some; congruence). lia.
Qed.
Print Assumptions C116_no_deadlock.
Fixpoint sum_to (b : nat -> nat) (n : nat) : nat := match n with 0 => 0 | S m => sum_to b m + b m end.
Lemma sum_to_ext b b' n : (forall k, k < n -> b k = b' k) -> sum_to b n = sum_to b' n.
Proof. induction n as [|n IH]; cbn; intros H; [reflexivity|]. rewrite IH by (intros; apply H; lia). now rewrite H by lia. Qed.
Lemma sum_to_le b b' n : (forall k, k < n -> b k <= b' k) -> sum_to b n <= sum_to b' n.
Proof. induction n as [|n IH]; cbn; intros H; [lia|]. specialize (IH ltac:(intros; apply H; lia)). specialize (H n ltac:(lia)). lia. Qed.
Lemma sum_to_one b j n : j < n -> sum_to (fun k => (if Nat.eqb j k then 1 else 0) + b k) n = S (sum_to b n).
Proof.
  induction n as [|n IH]; cbn; intros H; [lia|]. destruct (Nat.eqb_spec j n) as [->|Ne]; [|rewrite IH by lia; lia].
  rewrite (sum_to_ext _ b) by (intros k Hk; destruct (Nat.eqb_spec n k); [lia|reflexivity]). lia.
Qed.
Lemma count_jobs n ls : (forall k, n <= k -> of_job k ls = []) -> List.length (filter process_step ls) = sum_to (fun k => List.length (filter by_process (of_job k ls))) n.
Proof.
  induction ls as [|l ls IH]; intros H; [clear; induction n as [|n IH]; [reflexivity|cbn [sum_to]; rewrite <- IH; reflexivity]|].
  destruct l as [a|j l]; [apply IH; exact H|].
  assert (H2 : forall k, n <= k -> of_job k ls = []).
  { intros k Hk. specialize (H k Hk). unfold of_job in *. cbn in H. apply app_eq_nil in H. apply H. }
  assert (Hj : j < n). { destruct (Nat.lt_ge_cases j n) as [Lt|Ge]; [exact Lt|]. specialize (H j Ge). cbn in H. rewrite Nat.eqb_refl in H. discriminate. }
  specialize (IH H2). cbn [filter process_step]. destruct (by_process l) eqn:Eb; cbn [List.length]; rewrite IH.
  - rewrite <- (sum_to_one _ j n Hj). apply sum_to_ext. intros k _. unfold of_job. cbn [flat_map]. destruct (Nat.eqb j k); cbn; [now rewrite Eb|reflexivity].
  - apply sum_to_ext. intros k _. unfold of_job. cbn [flat_map]. destruct (Nat.eqb j k); cbn; [now rewrite Eb|reflexivity].
Qed.
(** The processes make a bounded number of steps altogether, if all the programs come to
    an end. *)
Theorem C116_finite : forall L pf logfd maxfd cap f0 tasks gs,
  Forall2 (fun a g => exists oks, all_do (k_progs a) (g_inp g) (g_out g) oks /\ Forall careful (k_progs a)) tasks gs -> 0 < cap ->
  exists bound, forall ls y, tasks_of ls = tasks -> all_planned L pf logfd maxfd f0 ls gs -> bsteps L logfd maxfd cap (idle f0) ls = Some y ->
    List.length (filter process_step ls) <= bound.
Proof.
  intros L pf logfd maxfd cap f0 tasks gs F Hc.
  assert (B : exists b : nat -> nat, forall k a g, nth_error tasks k = Some a -> nth_error gs k = Some g -> as_planned L pf logfd maxfd f0 a g ->
    forall fk, input_is fk (g_inr g) (k_typed a) (g_inp g) -> forall ls t, ran L logfd maxfd cap (k_s a) (k_s' a) (k_its a) fk (k_progs a) (k_typed a) ls t -> List.length (filter by_process ls) <= b k).
  { clear - F Hc. induction F as [|a g tasks gs (oks & D & C) F (b & IH)]; [exists (fun _ => 0); intros [|k]; discriminate|].
    assert (Dec : exists b0, as_planned L pf logfd maxfd f0 a g -> forall fk, input_is fk (g_inr g) (k_typed a) (g_inp g) -> forall ls t, ran L logfd maxfd cap (k_s a) (k_s' a) (k_its a) fk (k_progs a) (k_typed a) ls t -> List.length (filter by_process ls) <= b0).
    { destruct (Nat.eq_dec (List.length (k_progs a)) (S (List.length (g_cs g)))) as [Hl|Nl]; [|exists 0; intros (_ & Hl & _); contradiction].
      pose proof (all_do_nth _ _ _ _ D) as (_ & _ & _ & _ & Lo). destruct (do_facts (g_cs g) (k_progs a) (g_inp g) (g_out g) Hl oks D) as (ws & cs0 & Fa).
      exists (total cs0 (List.length (g_cs g))). intros (HL & _) fk Hi ls t (t0 & Hb & E).
      destruct (job_main L pf logfd maxfd _ _ _ _ _ _ _ HL fk _ _ Hi _ Hl cap Hc t0 Hb _ _ _ ws cs0 Fa ls t E) as (_ & _ & _ & _ & _ & A).
      rewrite by_is. apply A; [exact C|]. intros i Hi'. apply nth_error_Some. lia. }
    destruct Dec as (b0 & Hb0). exists (fun k => match k with 0 => b0 | S j => b j end). intros [|k] a2 g2 Ea Eg; cbn in Ea, Eg.
    - injection Ea as <-. injection Eg as <-. exact Hb0.
    - now apply IH. }
  destruct B as (b & Hb). exists (sum_to b (List.length tasks)). intros ls y T HP HR.
  destruct (bg_inv L pf logfd maxfd cap f0 ls y gs HP HR) as (h & I & M).
  assert (Ln : List.length (y_jobs y) = List.length tasks) by (rewrite <- (map_length fst), M, T; reflexivity).
  rewrite (count_jobs (List.length tasks)); [|rewrite <- Ln; apply I]. apply sum_to_le. intros k Hk.
  destruct (nth_error (y_jobs y) k) as [[a t]|] eqn:Ej; [|apply nth_error_None in Ej; lia].
  destruct (nth_error gs k) as [g|] eqn:Eg; [|apply nth_error_None in Eg; rewrite <- (F2_length _ _ _ F) in Eg; lia].
  destruct (bg_solo L pf logfd maxfd cap f0 ls y gs HP h k g a t I M Eg Ej) as (Hp & fk & ls' & t' & El & R & Hi & _). subst ls'.
  refine (Hb k a g _ Eg Hp fk Hi _ t' R). rewrite <- T, <- M, nth_error_map, Ej. reflexivity.
Qed.
Print Assumptions C116_finite.

(** Two pipelines, the second started while the first one is running; both write to "out". *)
Definition bg_log : redirect := mkRedirect 1 (SPath (PName "out")) 1089%N default_mode None false.
Definition bg_start (r : redirect) (s : st) := start some_limits (fun _ => true) false (redirected ["cat"%string] [["head"%string]] None (Some r)) s.
Definition bg_items (r : redirect) (s : st) := match snd (bg_start r s) with Ok (_, l) => l | Err _ => [] end.
Definition bg_task (r : redirect) (s : st) (progs : list prog) (typed : list N) : task := mkTask s (fst (bg_start r s)) (bg_items r s) progs typed.
Definition bg_first (r : redirect) : task := bg_task r shell [cat; head1] [98; 98; 10]%N.
Definition bg_second (r : redirect) : task := bg_task r (fst (bg_start r shell)) [writer; head1] [].
Definition bg_sched (r : redirect) : list blabel :=
  BStart (bg_first r) :: map (BStep 0) [JProc 0; JProc 0; JProc 1; JProc 1] ++ BStart (bg_second r) ::
  map (BStep 1) [JProc 0; JProc 1; JProc 1] ++ map (BStep 0) [JProc 0; JProc 0; JProc 1; JProc 1; JProc 0; JProc 0; JProc 1; JProc 1; JProc 1; JProc 0; JProc 0; JWait] ++
  map (BStep 1) [JProc 0; JProc 1; JProc 1; JProc 1; JProc 0; JProc 0; JWait].
Lemma bg_launched r s : (r = bg_log \/ r = out_red) -> (s = shell \/ s = fst (bg_start r shell)) ->
  launched_job some_limits (fun _ => true) 63 64 ["cat"%string] [["head"%string]] None (Some r) s (fst (bg_start r s)) (bg_items r s).
Proof.
  Local Transparent tget.
  assert (Far : forall t n, List.length t <= n -> tget t n = None) by (intros t n Hn; unfold tget; rewrite (proj2 (nth_error_None t n) Hn); reflexivity).
  intros Hr Hs. assert (T : forall n, tget (s_tab s) n = tget (s_tab shell) n).
  { intros n. destruct Hs as [-> | ->]; [reflexivity|]. destruct Hr as [-> | ->];
    (do 6 (destruct n as [|n]; [vm_compute; reflexivity|]); rewrite !Far; [reflexivity|cbn; lia|apply (Nat.le_trans _ 6); [vm_compute; lia|lia] ]). }
  assert (T2 : forall n, refers (s_tab s) n = refers (s_tab shell) n) by (intros n; unfold refers; now rewrite T).
  unfold launched_job. rewrite !T, !T2. split; [discriminate|]. split; [discriminate|]. split; [discriminate|]. split; [|split; [|split; [|split; [|split; [|split; [|split; [lia|split; [lia|] ] ] ] ] ] ] ].
  - intros n o. rewrite T2. do 3 (destruct n as [|n]; [cbn; intros E; injection E as <-; intros []|]). unfold refers. unfold tget. cbn. now destruct n.
  - intros n p f. rewrite T2. do 3 (destruct n as [|n]; [discriminate|]). unfold refers. unfold tget. cbn. now destruct n.
  - discriminate.
  - intros r' E. injection E as <-. exists (PName "out"). destruct Hr as [-> | ->]; repeat split; discriminate.
  - discriminate.
  - exists (match snd (bg_start r s) with Ok (x, _) => x | Err _ => None end). destruct Hr as [-> | ->], Hs as [-> | ->]; vm_compute; reflexivity.
  - assert (X3 : forallb roomy (bg_items r s) = true) by (destruct Hr as [-> | ->], Hs as [-> | ->]; vm_compute; reflexivity).
    rewrite forallb_forall in X3. intros rs t argv Hit. specialize (X3 _ Hit). apply andb_prop in X3 as [Y1 Y2]. apply Nat.ltb_lt in Y1.
    assert (lim some_limits = 64) by reflexivity. clear Hit.
    split; [|lia]. split; [lia|]. split; [lia|]. exists 40. split; [lia|]. split; [lia|]. destruct (tget t 40); [discriminate|reflexivity].
Qed.
Lemma cat_head1 : all_do [cat; head1] [98; 98; 10]%N [98; 98; 10]%N [true; true].
Proof.
  econstructor; [apply does_cat|]. econstructor; [|constructor]. do 3 (rewrite (unfold_eq head1); cbn; constructor; constructor; cbn). constructor.
Qed.
Definition bg_plans : list plan :=
  [mkPlan ["cat"%string] [["head"%string]] None (Some bg_log) [98; 98; 10]%N [98; 98; 10]%N;
   mkPlan ["cat"%string] [["head"%string]] None (Some bg_log) [] [97; 10]%N].
Example C116_nonvacuous :
  all_planned some_limits (fun _ => true) 63 64 job_fs (bg_sched bg_log) bg_plans /\
  Forall (fun a => Forall careful (k_progs a)) (tasks_of (bg_sched bg_log)) /\
  Forall2 (fun a g => exists oks, all_do (k_progs a) (g_inp g) (g_out g) oks /\ Forall careful (k_progs a)) (tasks_of (bg_sched bg_log)) bg_plans /\
  match bsteps some_limits 63 64 4 (idle job_fs) (bg_sched bg_log) with
  | Some y => map (fun x => j_wait (snd x)) (y_jobs y) = [Some true; Some false] /\ old_content (y_fs y) (PName "out") = [1; 2; 3; 98; 97; 98; 10; 10]%N
  | None => False
  end.
Proof.
  assert (Ca : Forall careful [cat; head1]) by (constructor; [apply PropsNet.careful_cat|]; constructor; [apply careful_head1|constructor]).
  split; [split|split; [|split] ].
  - constructor; [|constructor; [|constructor] ].
    + split; [apply bg_launched; auto|]. split; [reflexivity|]. split; [reflexivity|]. split; [apply (all_do_give _ _ _ _ cat_head1)|]. intros r E. injection E as <-. repeat split.
    + split; [apply bg_launched; auto|]. split; [reflexivity|]. split; [reflexivity|]. split; [apply (all_do_give _ _ _ _ writer_head1)|]. intros r E. injection E as <-. repeat split.
  - intros g g' p Hg _ (r & Er & _). destruct Hg as [<-|[<-|[] ] ]; discriminate.
  - constructor; [|constructor; [|constructor] ]; [exact Ca|apply careful_both].
  - constructor; [|constructor; [|constructor] ]; exists [true; true]; [exact (conj cat_head1 Ca)|exact (conj writer_head1 careful_both)].
  - vm_compute. repeat split.
Qed.
(** With the default flags of cmd > "p" (no O_APPEND) they overwrite each other's output. *)
Theorem C116_plain_refuted : exists L pf logfd maxfd cap c cs r p a b out out' oks f0 ls y,
  to_file p = Ok r /\
  launched_job L pf logfd maxfd c cs None (Some r) (k_s a) (k_s' a) (k_its a) /\ launched_job L pf logfd maxfd c cs None (Some r) (k_s b) (k_s' b) (k_its b) /\
  all_do (k_progs a) (k_typed a) out oks /\ all_do (k_progs b) (k_typed b) out' oks /\
  tasks_of ls = [a; b] /\ 0 < cap /\ bsteps L logfd maxfd cap (idle f0) ls = Some y /\ all_waited y /\ f0 p = None /\
  List.length (old_content (y_fs y) p) < List.length out + List.length out'.
Proof.
  exists some_limits, (fun _ => true), 63, 64, 4, ["cat"%string], [["head"%string]], out_red, (PName "out"), (bg_first out_red), (bg_second out_red).
  exists [98; 98; 10]%N, [97; 10]%N, [true; true], (fun _ => None), (bg_sched out_red).
  destruct (bsteps some_limits 63 64 4 (idle (fun _ => None)) (bg_sched out_red)) as [y|] eqn:E; [|vm_compute in E; discriminate].
  exists y. split; [reflexivity|]. split; [apply bg_launched; auto|]. split; [apply bg_launched; auto|]. split; [exact cat_head1|]. split; [exact writer_head1|].
  split; [reflexivity|]. split; [lia|]. split; [reflexivity|].
  assert (W : map (fun x => j_wait (snd x)) (y_jobs y) = [Some true; Some false] /\ old_content (y_fs y) (PName "out") = [97; 10; 10]%N).
  { assert (X : match bsteps some_limits 63 64 4 (idle (fun _ => None)) (bg_sched out_red) with
       | Some y => map (fun x => j_wait (snd x)) (y_jobs y) = [Some true; Some false] /\ old_content (y_fs y) (PName "out") = [97; 10; 10]%N | None => False end) by (vm_compute; split; reflexivity).
    rewrite E in X. exact X. }
  destruct W as [W1 W2]. split; [|split; [reflexivity|rewrite W2; cbn; lia] ].
  intros k a t Ek. apply (map_nth_error (fun x => j_wait (snd x))) in Ek. rewrite W1 in Ek. destruct k as [|[|k] ]; cbn in Ek; try (injection Ek as <-; discriminate). destruct k; discriminate.
Qed.
Print Assumptions C116_plain_refuted.
