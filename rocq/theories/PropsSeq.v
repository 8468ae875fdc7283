(** C103: (a > "f"; wait(); b < "f"; wait()) does what (a | b) does - if "f" was truncated
    or had not been longer. *)
From Verif Require Import Py RedirModel Os PerformModel PerformSpec RunModel RunSpec RunTopSpec RunEnds IterModel IterSpec FileModel FileSpec FileProofs NetModel NetSpec NetProofs NetTop JobModel JobSpec JobTop JobProofs JobMain PropsFile PropsRun PropsNet PropsJob SeqSpec.

Lemma all_give_app ps1 inp d mid e : all_give ps1 inp d mid e -> forall ps2 out e2, all_give ps2 mid e out e2 -> all_give (ps1 ++ ps2) inp d out e2.
Proof.
  induction 1 as [inp d|p ps inp d m ok out e G _ IH|p ps inp d m out e G Lv _ IH]; intros ps2 out2 e2 A; cbn; [exact A| |].
  - eapply all_give_ends; [exact G|]. now apply IH.
  - eapply all_give_goes_on; [exact G|exact Lv|]. now apply IH.
Qed.
Lemma frun_desc r es : forall s s' i, frun r s es = Some s' -> f_desc s i <> None -> f_desc s' i <> None.
Proof.
  induction es as [|e es IH]; intros s s' i E D; cbn in E; [injection E as <-; exact D|].
  destruct (fstep r s e) as [s1|] eqn:E1; [|discriminate]. apply (IH _ _ _ E). clear E IH.
  destruct e as [j|j data]; cbn in E1.
  - destruct (f_desc s j) eqn:Ej; [discriminate|]. destruct (redirect_open (f_fs s) r) as [f [d|]]; [|discriminate]. injection E1 as <-. cbn. destruct (Nat.eqb i j); [discriminate|exact D].
  - destruct (f_desc s j) eqn:Ej; [|discriminate]. destruct (sys_write (f_fs s) d data) as [f [d'|]]; [|discriminate]. injection E1 as <-. cbn. destruct (Nat.eqb i j); [discriminate|exact D].
Qed.
Lemma writes_desc r f n w st : frun r (fstart f) (writes n w) = Some st -> f_desc st n <> None.
Proof.
  unfold writes. cbn. destruct (redirect_open f r) as [f' [d|]]; [|discriminate]. intros E. apply (frun_desc _ _ _ _ n E). cbn. now rewrite Nat.eqb_refl.
Qed.

Lemma sends_source r p : sends_to r p -> r_source r = SPath p.
Proof. intros [H|[H _] ]; [|exact H]. cbn in H. injection H as <-. reflexivity. Qed.
(** The result of one job. *)
Theorem C103_one : forall L pf logfd maxfd c cs inr r p s s' its f0 typed inp progs cap out ls t,
  launched_job L pf logfd maxfd c cs inr (Some r) s s' its -> sends_to r p -> List.length progs = S (List.length cs) -> input_is f0 inr typed inp ->
  all_give progs inp true out true -> 0 < cap -> ran L logfd maxfd cap s s' its f0 progs typed ls t -> j_wait t <> None ->
  j_fs t p = Some (then_holds r (old_content f0 p) out) /\ (forall q, q <> p -> j_fs t q = f0 q) /\ j_term t = [].
Proof.
  intros L pf logfd maxfd c cs inr r p s s' its f0 typed inp progs cap out ls t HL Hr Hl Hi Ha Hc E W.
  pose proof (C101_waits _ _ _ _ _ _ _ _ _ _ _ _ _ _ _ _ _ _ _ HL Hl Hi Ha Hc E W) as D.
  destruct (job_result _ _ _ _ _ _ _ _ _ _ _ _ _ _ _ _ _ _ _ HL Hl Hi Ha Hc E) as (w & rest & X & G & Z).
  rewrite (Z D), app_nil_r in X. subst w. destruct (G p (sends_source _ _ Hr)) as (G1 & (st & G2 & G3) & G4). split; [|split; [exact G4|exact G1] ].
  pose proof (writes_desc _ _ _ _ _ G2) as Dn. destruct (f_desc st (List.length cs)) as [d|] eqn:Ed; [|congruence].
  unfold then_holds. destruct Hr as [Hr|(Sr & [Ft|Fa])].
  - pose proof (pinv_run f0 p r _ st Hr G2) as I. destruct (pi_desc _ _ _ _ I _ _ Ed) as (_ & _ & _ & _ & Ex). rewrite G3 in Ex.
    pose proof (pi_one _ _ _ _ I _ (writes_only _ out)) as Y. rewrite writes_output, G3 in Y. unfold old_content at 1 in Y.
    assert (FileModel.has (r_flag r) O_TRUNC = false /\ FileModel.has (r_flag r) O_APPEND = false) as [-> ->] by (cbn in Hr; injection Hr as <-; split; reflexivity).
    destruct (j_fs t p); [|congruence]. now rewrite Y.
  - destruct Ft as (F1 & F2 & F3). rewrite F1. rewrite <- G3. rewrite (C45_explicit_truncate f0 p r (List.length cs) _ st Sr ltac:(repeat split; tauto) (writes_only _ out) ltac:(discriminate) G2). now rewrite writes_output.
  - pose proof Fa as (F1 & F2 & F3). rewrite F1, F2. destruct (ainv_run f0 p r _ st Sr Fa G2) as [A1 A2 _]. destruct (A1 _ _ Ed) as (_ & _ & _ & Ex).
    rewrite writes_all in A2. rewrite G3 in A2, Ex. unfold old_content at 1 in A2. destruct (j_fs t p); [|congruence]. now rewrite A2.
Qed.
Print Assumptions C103_one.

(** The job (c | ... > "f") is run to the end of wait(), and then the job (c' | ... < "f"),
    on the files as the first one left them.  What the second one reads is what "f" then
    holds.  If that is the output of the first, the files other than "f" end up as those
    of the one job (c | ... | c' | ...) with the same input and output, run on the files
    as they were - whatever the three schedules. *)
Theorem C103_same : forall L pf logfd maxfd cap c cs c' cs' inr r1 f rin r2 g sA sA' itsA sB sB' itsB sP sP' itsP f0 typed typed' inp progs1 progs2 mid out lsA tA lsB tB lsP tP,
  0 < cap -> List.length progs1 = S (List.length cs) -> List.length progs2 = S (List.length cs') ->
  input_is f0 inr typed inp -> all_give progs1 inp true mid true -> all_give progs2 mid true out true ->
  sends_to r1 f -> r_source rin = SPath f -> sends_to r2 g ->
  launched_job L pf logfd maxfd c cs inr (Some r1) sA sA' itsA -> ran L logfd maxfd cap sA sA' itsA f0 progs1 typed lsA tA -> j_wait tA <> None ->
  launched_job L pf logfd maxfd c' cs' (Some rin) (Some r2) sB sB' itsB -> ran L logfd maxfd cap sB sB' itsB (j_fs tA) progs2 typed' lsB tB -> j_wait tB <> None ->
  launched_job L pf logfd maxfd c (cs ++ c' :: cs') inr (Some r2) sP sP' itsP -> ran L logfd maxfd cap sP sP' itsP f0 (progs1 ++ progs2) typed lsP tP -> j_wait tP <> None ->
  then_holds r1 (old_content f0 f) mid = mid ->
  forall q, q <> f -> j_fs tB q = j_fs tP q.
Proof.
  intros L pf logfd maxfd cap c cs c' cs' inr r1 f rin r2 g sA sA' itsA sB sB' itsB sP sP' itsP f0 typed typed' inp progs1 progs2 mid out lsA tA lsB tB lsP tP
    Hc L1 L2 Hi A1 A2 S1 Si S2 HA EA WA HB EB WB HP EP WP Same q Nq.
  destruct (C103_one _ _ _ _ _ _ _ _ _ _ _ _ _ _ _ _ _ _ _ _ HA S1 L1 Hi A1 Hc EA WA) as (X1 & X2 & _). rewrite Same in X1.
  assert (Ib : input_is (j_fs tA) (Some rin) typed' mid) by (exists f; now split).
  destruct (C103_one _ _ _ _ _ _ _ _ _ _ _ _ _ _ _ _ _ _ _ _ HB S2 L2 Ib A2 Hc EB WB) as (Y1 & Y2 & _).
  assert (L3 : List.length (progs1 ++ progs2) = S (List.length (cs ++ c' :: cs'))) by (rewrite !app_length; cbn; lia).
  pose proof (all_give_app _ _ _ _ _ A1 _ _ _ A2) as A3.
  destruct (C103_one _ _ _ _ _ _ _ _ _ _ _ _ _ _ _ _ _ _ _ _ HP S2 L3 Hi A3 Hc EP WP) as (Z1 & Z2 & _).
  assert (Ng : g <> f).
  { destruct HB as (_ & _ & _ & _ & _ & _ & _ & Ne & _). specialize (Ne rin r2 eq_refl eq_refl). rewrite Si, (sends_source _ _ S2) in Ne. congruence. }
  assert (Eg : old_content (j_fs tA) g = old_content f0 g) by (unfold old_content; now rewrite (X2 g Ng)).
  destruct (path_eqb_spec q g) as [->|Nq'].
  - rewrite Y1, Z1, Eg. reflexivity.
  - rewrite (Y2 q Nq'), (Z2 q Nq'). apply X2. exact Nq.
Qed.
Print Assumptions C103_same.
(** It is: with O_TRUNC; or if "f" did not exist or was not longer than the output. *)
Theorem C103_when : forall r f old mid, sends_to r f ->
  (then_holds r old mid = mid <-> truncating (r_flag r) \/ (to_file f = Ok r /\ List.length old <= List.length mid) \/ (appending (r_flag r) /\ old = [])).
Proof.
  intros r f old mid [H|(Sr & [Ft|Fa])]; unfold then_holds.
  - assert (FileModel.has (r_flag r) O_TRUNC = false /\ FileModel.has (r_flag r) O_APPEND = false) as [Ht Hap] by (cbn in H; injection H as <-; split; reflexivity).
    rewrite Ht, Hap. split.
    + intros E. right. left. split; [exact H|]. apply (f_equal (@List.length N)) in E. rewrite app_length, skipn_length in E. lia.
    + intros [(A & _)|[(_ & Le)|((_ & A & _) & _)] ]; [congruence| |congruence]. rewrite skipn_all2 by exact Le. apply app_nil_r.
  - rewrite (proj1 Ft). split; [now left|reflexivity].
  - pose proof Fa as (A & B & _). rewrite A, B. split.
    + intros E. right. right. split; [exact Fa|]. apply (f_equal (@List.length N)) in E. rewrite app_length in E. destruct old; [reflexivity|cbn in E; lia].
    + intros [(C & _)|[(C & _)|(_ & ->)] ]; [congruence| |reflexivity]. cbn in C. injection C as <-. discriminate B.
Qed.
Print Assumptions C103_when.
(** The same for what is shown on the shell's standard output. *)
Theorem C103_same_shown : forall L pf logfd maxfd cap c cs c' cs' inr r1 f rin sA sA' itsA sB sB' itsB sP sP' itsP f0 typed typed' inp progs1 progs2 mid out lsA tA lsB tB lsP tP,
  0 < cap -> List.length progs1 = S (List.length cs) -> List.length progs2 = S (List.length cs') ->
  input_is f0 inr typed inp -> all_give progs1 inp true mid true -> all_give progs2 mid true out true ->
  sends_to r1 f -> r_source rin = SPath f -> refers (s_tab sB) 1 = refers (s_tab sP) 1 ->
  launched_job L pf logfd maxfd c cs inr (Some r1) sA sA' itsA -> ran L logfd maxfd cap sA sA' itsA f0 progs1 typed lsA tA -> j_wait tA <> None ->
  launched_job L pf logfd maxfd c' cs' (Some rin) None sB sB' itsB -> ran L logfd maxfd cap sB sB' itsB (j_fs tA) progs2 typed' lsB tB -> j_wait tB <> None ->
  launched_job L pf logfd maxfd c (cs ++ c' :: cs') inr None sP sP' itsP -> ran L logfd maxfd cap sP sP' itsP f0 (progs1 ++ progs2) typed lsP tP -> j_wait tP <> None ->
  then_holds r1 (old_content f0 f) mid = mid ->
  j_term tA ++ j_term tB = j_term tP /\ forall q, q <> f -> j_fs tB q = j_fs tP q.
Proof.
  intros L pf logfd maxfd cap c cs c' cs' inr r1 f rin sA sA' itsA sB sB' itsB sP sP' itsP f0 typed typed' inp progs1 progs2 mid out lsA tA lsB tB lsP tP
    Hc L1 L2 Hi A1 A2 S1 Si Eo HA EA WA HB EB WB HP EP WP Same.
  destruct (C103_one _ _ _ _ _ _ _ _ _ _ _ _ _ _ _ _ _ _ _ _ HA S1 L1 Hi A1 Hc EA WA) as (X1 & X2 & X3). rewrite Same in X1.
  assert (Ib : input_is (j_fs tA) (Some rin) typed' mid) by (exists f; now split).
  assert (L3 : List.length (progs1 ++ progs2) = S (List.length (cs ++ c' :: cs'))) by (rewrite !app_length; cbn; lia).
  pose proof (all_give_app _ _ _ _ _ A1 _ _ _ A2) as A3.
  pose proof (C101_waits _ _ _ _ _ _ _ _ _ _ _ _ _ _ _ _ _ _ _ HB L2 Ib A2 Hc EB WB) as DB.
  pose proof (C101_waits _ _ _ _ _ _ _ _ _ _ _ _ _ _ _ _ _ _ _ HP L3 Hi A3 Hc EP WP) as DP.
  destruct (C101_shown _ _ _ _ _ _ _ _ _ _ _ _ _ _ _ _ _ _ HB L2 Ib A2 Hc EB) as (o & w & Y1 & Y2 & _ & Y3 & Y4).
  destruct (C101_shown _ _ _ _ _ _ _ _ _ _ _ _ _ _ _ _ _ _ HP L3 Hi A3 Hc EP) as (o' & w' & Z1 & Z2 & _ & Z3 & Z4).
  rewrite (Y3 DB) in Y2. rewrite (Z3 DP) in Z2. rewrite Y1, Z1 in Eo. injection Eo as <-. unfold shown in *.
  split; [rewrite X3, Y2, Z2; reflexivity|]. intros q Nq. rewrite Y4, Z4. now apply X2.
Qed.
Print Assumptions C103_same_shown.
(** In general the second job reads what the file then holds ... *)
Theorem C103_general : forall L pf logfd maxfd cap c cs c' cs' inr r1 f rin r2 g sA sA' itsA sB sB' itsB f0 typed typed' inp progs1 progs2 mid out lsA tA lsB tB,
  0 < cap -> List.length progs1 = S (List.length cs) -> List.length progs2 = S (List.length cs') ->
  input_is f0 inr typed inp -> all_give progs1 inp true mid true -> all_give progs2 (then_holds r1 (old_content f0 f) mid) true out true ->
  sends_to r1 f -> r_source rin = SPath f -> sends_to r2 g ->
  launched_job L pf logfd maxfd c cs inr (Some r1) sA sA' itsA -> ran L logfd maxfd cap sA sA' itsA f0 progs1 typed lsA tA -> j_wait tA <> None ->
  launched_job L pf logfd maxfd c' cs' (Some rin) (Some r2) sB sB' itsB -> ran L logfd maxfd cap sB sB' itsB (j_fs tA) progs2 typed' lsB tB -> j_wait tB <> None ->
  j_fs tB g = Some (then_holds r2 (old_content f0 g) out).
Proof.
  intros L pf logfd maxfd cap c cs c' cs' inr r1 f rin r2 g sA sA' itsA sB sB' itsB f0 typed typed' inp progs1 progs2 mid out lsA tA lsB tB
    Hc L1 L2 Hi A1 A2 S1 Si S2 HA EA WA HB EB WB.
  destruct (C103_one _ _ _ _ _ _ _ _ _ _ _ _ _ _ _ _ _ _ _ _ HA S1 L1 Hi A1 Hc EA WA) as (X1 & X2 & _).
  assert (Ib : input_is (j_fs tA) (Some rin) typed' (then_holds r1 (old_content f0 f) mid)) by (exists f; now split).
  destruct (C103_one _ _ _ _ _ _ _ _ _ _ _ _ _ _ _ _ _ _ _ _ HB S2 L2 Ib A2 Hc EB WB) as (Y1 & Y2 & _).
  assert (Ng : g <> f).
  { destruct HB as (_ & _ & _ & _ & _ & _ & _ & Ne & _). specialize (Ne rin r2 eq_refl eq_refl). rewrite Si, (sends_source _ _ S2) in Ne. congruence. }
  rewrite Y1. unfold old_content. now rewrite (X2 g Ng).
Qed.
Print Assumptions C103_general.
(** ... so that with (b = cat > "g", truncated) the old end of "f" comes out again. *)
Theorem C103_refuted : forall L pf logfd maxfd cap c cs c' inr r1 f rin r2 g sA sA' itsA sB sB' itsB f0 typed typed' inp progs1 mid lsA tA lsB tB,
  0 < cap -> List.length progs1 = S (List.length cs) ->
  input_is f0 inr typed inp -> all_give progs1 inp true mid true -> to_file f = Ok r1 -> List.length mid < List.length (old_content f0 f) ->
  r_source rin = SPath f -> r_source r2 = SPath g -> truncating (r_flag r2) ->
  launched_job L pf logfd maxfd c cs inr (Some r1) sA sA' itsA -> ran L logfd maxfd cap sA sA' itsA f0 progs1 typed lsA tA -> j_wait tA <> None ->
  launched_job L pf logfd maxfd c' [] (Some rin) (Some r2) sB sB' itsB -> ran L logfd maxfd cap sB sB' itsB (j_fs tA) [cat] typed' lsB tB -> j_wait tB <> None ->
  j_fs tB g = Some (mid ++ skipn (List.length mid) (old_content f0 f)) /\ j_fs tB g <> Some mid.
Proof.
  intros L pf logfd maxfd cap c cs c' inr r1 f rin r2 g sA sA' itsA sB sB' itsB f0 typed typed' inp progs1 mid lsA tA lsB tB
    Hc L1 Hi A1 T1 Lt Si S2 T2 HA EA WA HB EB WB.
  assert (X : j_fs tB g = Some (mid ++ skipn (List.length mid) (old_content f0 f))).
  { pose proof T2 as (T & _).
    assert (G : all_give [cat] (then_holds r1 (old_content f0 f) mid) true (then_holds r1 (old_content f0 f) mid) true).
    { apply (all_do_give [cat] _ _ [true]). econstructor; [apply does_cat|constructor]. }
    rewrite (C103_general L pf logfd maxfd cap c cs c' [] inr r1 f rin r2 g sA sA' itsA sB sB' itsB f0 typed typed' inp progs1 [cat] mid _ lsA tA lsB tB Hc L1 eq_refl Hi A1 G
      (or_introl T1) Si (or_intror (conj S2 (or_introl T2))) HA EA WA HB EB WB).
    unfold then_holds. rewrite T. cbn in T1. injection T1 as <-. reflexivity. }
  split; [exact X|]. rewrite X. intros E. injection E as E. apply (f_equal (@List.length N)) in E. rewrite app_length, skipn_length in E. lia.
Qed.
Print Assumptions C103_refuted.

(** cat < in | head -1 > mid; cat < mid > g, and cat < in | head -1 | cat > g. *)
Definition from_p (n : string) : redirect := mkRedirect 0 (SPath (PName n)) O_RDONLY default_mode None false.
Definition trunc_p (n : string) : redirect := mkRedirect 1 (SPath (PName n)) (N.lor O_TRUNC (N.lor O_WRONLY O_CREAT)) default_mode None false.
Definition seq_start c cs inr outr := start some_limits (fun _ => true) false (redirected c cs (Some inr) (Some outr)) shell.
Definition seq_items c cs inr outr := match snd (seq_start c cs inr outr) with Ok (_, l) => l | Err _ => [] end.
Definition seq_ok c cs inr outr := match snd (seq_start c cs inr outr) with Ok _ => true | Err _ => false end && forallb roomy (seq_items c cs inr outr).
Lemma seq_launched c cs a b outr : outr = trunc_p b \/ outr = get_red (to_file (PName b)) -> a <> b -> seq_ok c cs (from_p a) outr = true ->
  launched_job some_limits (fun _ => true) 63 64 c cs (Some (from_p a)) (Some outr) shell (fst (seq_start c cs (from_p a) outr)) (seq_items c cs (from_p a) outr).
Proof.
  intros Ho Nab Hok. apply andb_prop in Hok as [Hok Hroom].
  split; [discriminate|]. split; [discriminate|]. split; [discriminate|]. split; [|split; [|split; [|split; [|split; [|split; [|split; [lia|split; [lia|] ] ] ] ] ] ] ].
  - intros n o. do 3 (destruct n as [|n]; [cbn; intros E; injection E as <-; intros []|]). unfold refers. Local Transparent tget. unfold tget. cbn. now destruct n.
  - intros n p f. do 3 (destruct n as [|n]; [discriminate|]). unfold refers. unfold tget. cbn. now destruct n.
  - intros r E. injection E as <-. exists (PName a). repeat split.
  - intros r E. injection E as <-. exists (PName b). destruct Ho as [-> | ->]; repeat split; discriminate.
  - intros r r' E E'. injection E as <-. injection E' as <-. destruct Ho as [-> | ->]; cbn; congruence.
  - unfold seq_items, seq_start in *. destruct (start some_limits (fun _ => true) false (redirected c cs (Some (from_p a)) (Some outr)) shell) as [s' [[ret l]|]]; [|discriminate]. exists ret. reflexivity.
  - rewrite forallb_forall in Hroom. intros rs t argv Hit. specialize (Hroom _ Hit). apply andb_prop in Hroom as [Y1 Y2]. apply Nat.ltb_lt in Y1.
    assert (lim some_limits = 64) by reflexivity. clear Hit.
    split; [|lia]. split; [lia|]. split; [lia|]. exists 40. split; [lia|]. split; [lia|]. destruct (tget t 40); [discriminate|reflexivity].
Qed.
Fixpoint sweep (n : nat) : list jlabel := match n with 0 => [] | S k => [JProc 0; JProc 1; JProc 2] ++ sweep k end.
Fixpoint run_some (step : job -> list jlabel -> option job) (t : job) (ls : list jlabel) : job * list jlabel :=
  match ls with [] => (t, []) | l :: ls' => match step t [l] with Some t' => let '(u, k) := run_some step t' ls' in (u, l :: k) | None => run_some step t ls' end end.
(** Run by the schedule found in that way. *)
Definition do_seq c cs inr outr (f : fs) progs : option job :=
  let go := run_job some_limits 63 64 4 shell (fst (seq_start c cs inr outr)) (seq_items c cs inr outr) in
  match begin_job some_limits 63 64 (seq_items c cs inr outr) f progs [] with
  | Some t0 => go t0 (snd (run_some go t0 (sweep 12 ++ [JWait])))
  | None => None
  end.
Definition seq_fs : fs := fset (fset (fun _ => None) (PName "in") [97; 10; 98; 10]%N) (PName "mid") [1; 2; 3]%N.
Definition first_job (r1 : redirect) := do_seq ["cat"%string] [["head"%string]] (from_p "in") r1 seq_fs [cat; head1].
Definition second_job (f : fs) := do_seq ["cat"%string] [] (from_p "mid") (trunc_p "g") f [cat].
Definition one_job := do_seq ["cat"%string] [["head"%string]; ["cat"%string]] (from_p "in") (trunc_p "g") seq_fs [cat; head1; cat].
Example C103_nonvacuous :
  seq_ok ["cat"%string] [["head"%string]] (from_p "in") (trunc_p "mid") = true /\
  seq_ok ["cat"%string] [["head"%string]] (from_p "in") (get_red (to_file (PName "mid"))) = true /\
  seq_ok ["cat"%string] [] (from_p "mid") (trunc_p "g") = true /\
  seq_ok ["cat"%string] [["head"%string]; ["cat"%string]] (from_p "in") (trunc_p "g") = true /\
  match first_job (trunc_p "mid"), first_job (get_red (to_file (PName "mid"))), one_job with
  | Some t, Some u, Some v =>
    j_wait t <> None /\ j_wait u <> None /\ j_wait v <> None /\ j_fs v (PName "g") = Some [97; 10]%N /\
    match second_job (j_fs t), second_job (j_fs u) with
    | Some t', Some u' => j_wait t' <> None /\ j_wait u' <> None /\ j_fs t' (PName "g") = Some [97; 10]%N /\ j_fs u' (PName "g") = Some [97; 10; 3]%N
    | _, _ => False
    end
  | _, _, _ => False
  end.
Proof. vm_compute. repeat split; discriminate. Qed.
