(** C100: a pipeline of programs redirected to a file leaves there what the programs
    compute; C101: without a redirection that is what the shell shows. *)
From Verif Require Import Py RedirModel Os PerformModel PerformSpec RunModel RunSpec RunTopSpec RunEnds IterModel IterSpec FileModel FileSpec FileProofs NetModel NetSpec NetProofs NetTop JobModel JobSpec JobTop JobProofs JobMain PropsFile PropsRun PropsNet.

Lemma by_is ls : List.length (filter by_process ls) = List.length (filter is_proc ls).
Proof. reflexivity. Qed.
Lemma writes_only n w : only n (writes n w).
Proof. unfold writes, only. constructor; [reflexivity|]. apply Forall_forall. intros e He. apply in_map_iff in He as (b & <- & _). reflexivity. Qed.
Lemma writes_output n w : output_of n (writes n w) = w.
Proof. unfold writes, output_of. cbn. induction w as [|b w IH]; [reflexivity|]. cbn. rewrite Nat.eqb_refl. cbn. now rewrite IH. Qed.
Lemma writes_all n w : all_output (writes n w) = w.
Proof. unfold writes, all_output. cbn. induction w as [|b w IH]; [reflexivity|]. cbn. now rewrite IH. Qed.
Lemma job_result L pf logfd maxfd c cs inr outr s s' its f0 typed inp progs cap out ls t :
  launched_job L pf logfd maxfd c cs inr outr s s' its -> List.length progs = S (List.length cs) -> input_is f0 inr typed inp ->
  all_give progs inp true out true -> 0 < cap -> ran L logfd maxfd cap s s' its f0 progs typed ls t ->
  exists w rest, w ++ rest = out /\ gone_to cs outr s f0 t w /\ (all_gone t -> rest = []).
Proof.
  intros HL Hl Hi Ha Hc (t0 & Hb & E). destruct (give_facts cs progs inp out Hl Ha) as (es & ws & cs0 & F).
  destruct (job_main L pf logfd maxfd c cs inr outr s s' its HL f0 typed inp Hi progs Hl cap Hc t0 Hb out es False ws cs0 F ls t E) as (A & _). exact A.
Qed.
(** cmd > "p" (default flags): at every moment a part of the output is in the file, in
    front of what is left of the old content; no other file is changed and nothing is
    shown; when no process is left, it is all of the output. *)
Theorem C100_file : forall L pf logfd maxfd c cs inr r p s s' its f0 typed inp progs cap out ls t,
  launched_job L pf logfd maxfd c cs inr (Some r) s s' its -> to_file p = Ok r -> List.length progs = S (List.length cs) -> input_is f0 inr typed inp ->
  all_give progs inp true out true -> 0 < cap -> ran L logfd maxfd cap s s' its f0 progs typed ls t ->
  (exists w, prefix w out /\ (all_gone t -> w = out) /\ old_content (j_fs t) p = w ++ skipn (List.length w) (old_content f0 p)) /\
  (forall q, q <> p -> j_fs t q = f0 q) /\ j_term t = [].
Proof.
  intros L pf logfd maxfd c cs inr r p s s' its f0 typed inp progs cap out ls t HL Hr Hl Hi Ha Hc E.
  destruct (job_result _ _ _ _ _ _ _ _ _ _ _ _ _ _ _ _ _ _ _ HL Hl Hi Ha Hc E) as (w & rest & X & G & Z).
  assert (Sr : r_source r = SPath p) by (cbn in Hr; injection Hr as <-; reflexivity).
  destruct (G p Sr) as (G1 & (st & G2 & G3) & G4). split; [|split; [exact G4|exact G1] ].
  exists w. split; [now exists rest|]. split; [intros D; rewrite (Z D), app_nil_r in X; exact X|].
  destruct (C45_result f0 p r (List.length cs) _ st Hr (writes_only _ w) G2) as [Y _]. rewrite writes_output, G3 in Y. exact Y.
Qed.
Print Assumptions C100_file.
(** So the file is the output if the old content was not longer ... *)
Theorem C100_exact_partial : forall L pf logfd maxfd c cs inr r p s s' its f0 typed inp progs cap out ls t,
  launched_job L pf logfd maxfd c cs inr (Some r) s s' its -> to_file p = Ok r -> List.length progs = S (List.length cs) -> input_is f0 inr typed inp ->
  all_give progs inp true out true -> 0 < cap -> ran L logfd maxfd cap s s' its f0 progs typed ls t -> all_gone t ->
  List.length (old_content f0 p) <= List.length out -> old_content (j_fs t) p = out.
Proof.
  intros L pf logfd maxfd c cs inr r p s s' its f0 typed inp progs cap out ls t HL Hr Hl Hi Ha Hc E D Le.
  destruct (C100_file L pf logfd maxfd c cs inr r p s s' its f0 typed inp progs cap out ls t HL Hr Hl Hi Ha Hc E) as ((w & _ & W & X) & _).
  rewrite (W D) in X. rewrite X, skipn_all2 by exact Le. apply app_nil_r.
Qed.
Print Assumptions C100_exact_partial.
(** ... and is not, if it was. *)
Theorem C100_refuted : forall L pf logfd maxfd c cs inr r p s s' its f0 typed inp progs cap out ls t,
  launched_job L pf logfd maxfd c cs inr (Some r) s s' its -> to_file p = Ok r -> List.length progs = S (List.length cs) -> input_is f0 inr typed inp ->
  all_give progs inp true out true -> 0 < cap -> ran L logfd maxfd cap s s' its f0 progs typed ls t -> all_gone t ->
  List.length out < List.length (old_content f0 p) -> old_content (j_fs t) p <> out.
Proof.
  intros L pf logfd maxfd c cs inr r p s s' its f0 typed inp progs cap out ls t HL Hr Hl Hi Ha Hc E D Lt Y.
  destruct (C100_file L pf logfd maxfd c cs inr r p s s' its f0 typed inp progs cap out ls t HL Hr Hl Hi Ha Hc E) as ((w & _ & W & X) & _).
  rewrite (W D), Y in X. apply (f_equal (@List.length N)) in X. rewrite app_length, skipn_length in X. lia.
Qed.
Print Assumptions C100_refuted.
(** With O_TRUNC given explicitly it always is the output, with O_APPEND the output after
    the old content. *)
Theorem C100_truncate : forall L pf logfd maxfd c cs inr r p s s' its f0 typed inp progs cap out ls t,
  launched_job L pf logfd maxfd c cs inr (Some r) s s' its -> r_source r = SPath p -> truncating (r_flag r) -> List.length progs = S (List.length cs) -> input_is f0 inr typed inp ->
  all_give progs inp true out true -> 0 < cap -> ran L logfd maxfd cap s s' its f0 progs typed ls t ->
  (exists w, prefix w out /\ (all_gone t -> w = out) /\ j_fs t p = Some w) /\ (forall q, q <> p -> j_fs t q = f0 q) /\ j_term t = [].
Proof.
  intros L pf logfd maxfd c cs inr r p s s' its f0 typed inp progs cap out ls t HL Sr Fl Hl Hi Ha Hc E.
  destruct (job_result _ _ _ _ _ _ _ _ _ _ _ _ _ _ _ _ _ _ _ HL Hl Hi Ha Hc E) as (w & rest & X & G & Z).
  destruct (G p Sr) as (G1 & (st & G2 & G3) & G4). split; [|split; [exact G4|exact G1] ].
  exists w. split; [now exists rest|]. split; [intros D; rewrite (Z D), app_nil_r in X; exact X|].
  rewrite <- G3, (C45_explicit_truncate f0 p r (List.length cs) _ st Sr Fl (writes_only _ w) ltac:(discriminate) G2). now rewrite writes_output.
Qed.
Print Assumptions C100_truncate.
Theorem C100_append : forall L pf logfd maxfd c cs inr r p s s' its f0 typed inp progs cap out ls t,
  launched_job L pf logfd maxfd c cs inr (Some r) s s' its -> r_source r = SPath p -> appending (r_flag r) -> List.length progs = S (List.length cs) -> input_is f0 inr typed inp ->
  all_give progs inp true out true -> 0 < cap -> ran L logfd maxfd cap s s' its f0 progs typed ls t ->
  (exists w, prefix w out /\ (all_gone t -> w = out) /\ old_content (j_fs t) p = old_content f0 p ++ w) /\ (forall q, q <> p -> j_fs t q = f0 q) /\ j_term t = [].
Proof.
  intros L pf logfd maxfd c cs inr r p s s' its f0 typed inp progs cap out ls t HL Sr Fl Hl Hi Ha Hc E.
  destruct (job_result _ _ _ _ _ _ _ _ _ _ _ _ _ _ _ _ _ _ _ HL Hl Hi Ha Hc E) as (w & rest & X & G & Z).
  destruct (G p Sr) as (G1 & (st & G2 & G3) & G4). split; [|split; [exact G4|exact G1] ].
  exists w. split; [now exists rest|]. split; [intros D; rewrite (Z D), app_nil_r in X; exact X|].
  rewrite <- G3, (C45_explicit_append f0 p r _ st Sr Fl G2). now rewrite writes_all.
Qed.
Print Assumptions C100_append.
(** C101: without a redirection of the output, it goes to the shell's own standard output. *)
Theorem C101_shown : forall L pf logfd maxfd c cs inr s s' its f0 typed inp progs cap out ls t,
  launched_job L pf logfd maxfd c cs inr None s s' its -> List.length progs = S (List.length cs) -> input_is f0 inr typed inp ->
  all_give progs inp true out true -> 0 < cap -> ran L logfd maxfd cap s s' its f0 progs typed ls t ->
  exists o1 w, refers (s_tab s) 1 = Some o1 /\ shown o1 t w /\ prefix w out /\ (all_gone t -> w = out) /\ j_fs t = f0.
Proof.
  intros L pf logfd maxfd c cs inr s s' its f0 typed inp progs cap out ls t HL Hl Hi Ha Hc E.
  destruct (job_result _ _ _ _ _ _ _ _ _ _ _ _ _ _ _ _ _ _ _ HL Hl Hi Ha Hc E) as (w & rest & X & (o1 & G1 & G2 & G3) & Z).
  exists o1, w. split; [exact G1|]. split; [exact G2|]. split; [now exists rest|]. split; [|exact G3]. intros D. rewrite (Z D), app_nil_r in X. exact X.
Qed.
Print Assumptions C101_shown.

(** Whatever is redirected: wait() comes to its end, from everywhere ... *)
Theorem C101_no_deadlock : forall L pf logfd maxfd c cs inr outr s s' its f0 typed inp progs cap out ls t,
  launched_job L pf logfd maxfd c cs inr outr s s' its -> List.length progs = S (List.length cs) -> input_is f0 inr typed inp ->
  all_give progs inp true out true -> Forall careful progs -> 0 < cap -> ran L logfd maxfd cap s s' its f0 progs typed ls t ->
  exists ls' t', run_job L logfd maxfd cap s s' its t ls' = Some t' /\ j_wait t' <> None.
Proof.
  intros L pf logfd maxfd c cs inr outr s s' its f0 typed inp progs cap out ls t HL Hl Hi Ha Hcr Hc (t0 & Hb & E). destruct (give_facts cs progs inp out Hl Ha) as (es & ws & cs0 & F).
  destruct (job_main L pf logfd maxfd c cs inr outr s s' its HL f0 typed inp Hi progs Hl cap Hc t0 Hb out es False ws cs0 F ls t E) as (_ & _ & A & _).
  destruct (A Hcr) as (ls' & t' & v & B & D). exists ls', t'. split; [exact B|congruence].
Qed.
Print Assumptions C101_no_deadlock.
(** ... after a bounded number of steps of the programs, if they all come to an end ... *)
Theorem C101_finite : forall L pf logfd maxfd c cs inr outr s s' its f0 typed inp progs cap out oks,
  launched_job L pf logfd maxfd c cs inr outr s s' its -> List.length progs = S (List.length cs) -> input_is f0 inr typed inp ->
  all_do progs inp out oks -> Forall careful progs -> 0 < cap ->
  exists bound, forall ls t, ran L logfd maxfd cap s s' its f0 progs typed ls t -> List.length (filter by_process ls) <= bound.
Proof.
  intros L pf logfd maxfd c cs inr outr s s' its f0 typed inp progs cap out oks HL Hl Hi Ha Hcr Hc. pose proof (all_do_nth _ _ _ _ Ha) as (_ & _ & _ & _ & Lo).
  destruct (do_facts cs progs inp out Hl oks Ha) as (ws & cs0 & F). exists (total cs0 (List.length cs)). intros ls t (t0 & Hb & E).
  destruct (job_main L pf logfd maxfd c cs inr outr s s' its HL f0 typed inp Hi progs Hl cap Hc t0 Hb out _ _ ws cs0 F ls t E) as (_ & _ & _ & _ & _ & A).
  rewrite by_is. apply A; [exact Hcr|]. intros i Hi'. apply nth_error_Some. lia.
Qed.
Print Assumptions C101_finite.
(** ... and not before every process has gone. *)
Theorem C101_waits : forall L pf logfd maxfd c cs inr outr s s' its f0 typed inp progs cap out ls t,
  launched_job L pf logfd maxfd c cs inr outr s s' its -> List.length progs = S (List.length cs) -> input_is f0 inr typed inp ->
  all_give progs inp true out true -> 0 < cap -> ran L logfd maxfd cap s s' its f0 progs typed ls t ->
  j_wait t <> None -> all_gone t.
Proof.
  intros L pf logfd maxfd c cs inr outr s s' its f0 typed inp progs cap out ls t HL Hl Hi Ha Hc (t0 & Hb & E) W. destruct (give_facts cs progs inp out Hl Ha) as (es & ws & cs0 & F).
  destruct (job_main L pf logfd maxfd c cs inr outr s s' its HL f0 typed inp Hi progs Hl cap Hc t0 Hb out es False ws cs0 F ls t E) as (_ & A & _).
  destruct (j_wait t) as [v|] eqn:Ev; [|congruence]. now apply (A v).
Qed.
Print Assumptions C101_waits.
(** It raises PipelineFailed if one of the programs fails; it returns if none fails and
    all read their whole input. *)
Theorem C101_fails : forall L pf logfd maxfd c cs inr outr s s' its f0 typed inp progs cap out oks ls t,
  launched_job L pf logfd maxfd c cs inr outr s s' its -> List.length progs = S (List.length cs) -> input_is f0 inr typed inp ->
  all_do progs inp out oks -> Forall careful progs -> 0 < cap -> In false oks -> ran L logfd maxfd cap s s' its f0 progs typed ls t ->
  j_wait t <> Some true.
Proof.
  intros L pf logfd maxfd c cs inr outr s s' its f0 typed inp progs cap out oks ls t HL Hl Hi Ha Hcr Hc Hf (t0 & Hb & E) W. pose proof (all_do_nth _ _ _ _ Ha) as (_ & _ & _ & _ & Lo).
  destruct (do_facts cs progs inp out Hl oks Ha) as (ws & cs0 & F). apply In_nth_error in Hf as [i Hn].
  assert (Le : i <= List.length cs) by (assert (i < List.length oks) by (apply nth_error_Some; congruence); lia).
  destruct (job_main L pf logfd maxfd c cs inr outr s s' its HL f0 typed inp Hi progs Hl cap Hc t0 Hb out _ _ ws cs0 F ls t E) as (_ & A & _ & B & _).
  destruct (A _ W) as [G V]. rewrite (B Hcr G i Le Hn) in V. discriminate.
Qed.
Print Assumptions C101_fails.
Theorem C101_succeeds : forall L pf logfd maxfd c cs inr outr s s' its f0 typed inp progs cap out oks ls t,
  launched_job L pf logfd maxfd c cs inr outr s s' its -> List.length progs = S (List.length cs) -> input_is f0 inr typed inp ->
  all_do progs inp out oks -> others_read progs inp -> 0 < cap -> ~ In false oks -> ran L logfd maxfd cap s s' its f0 progs typed ls t ->
  j_wait t <> Some false.
Proof.
  intros L pf logfd maxfd c cs inr outr s s' its f0 typed inp progs cap out oks ls t HL Hl Hi Ha Hr Hc Hf (t0 & Hb & E) W. pose proof (all_do_nth _ _ _ _ Ha) as (_ & _ & _ & _ & Lo).
  destruct (do_facts cs progs inp out Hl oks Ha) as (ws & cs0 & F).
  assert (Tr : forall i, i <= List.length cs -> nth_error oks i = Some true).
  { intros i Hi'. destruct (nth_error oks i) as [[|]|] eqn:Ei; [reflexivity| |]; [now apply nth_error_In in Ei|]. apply nth_error_None in Ei. lia. }
  destruct (job_main L pf logfd maxfd c cs inr outr s s' its HL f0 typed inp Hi progs Hl cap Hc t0 Hb out _ _ ws cs0 F ls t E) as (_ & A & _ & _ & B & _).
  destruct (A _ W) as [G V]. rewrite (B Hr Tr) in V. discriminate.
Qed.
Print Assumptions C101_succeeds.

(** cat < in | head -1 > out, and the same without redirections. *)
Definition in_red : redirect := mkRedirect 0 (SPath (PName "in")) O_RDONLY default_mode None false.
Definition out_red : redirect := get_red (to_file (PName "out")).
Definition started_job (inr outr : option redirect) := start some_limits (fun _ => true) false (redirected ["cat"%string] [["head"%string]] inr outr) shell.
Definition job_items inr outr := match snd (started_job inr outr) with Ok (_, l) => l | Err _ => [] end.
Definition job_fs : fs := fset (fset (fun _ => None) (PName "in") [97; 10; 98; 10]%N) (PName "out") [1; 2; 3]%N.
Definition job_sched : list jlabel := [JProc 0; JProc 0; JProc 0; JProc 1; JProc 0; JProc 1; JProc 0; JProc 1; JProc 1; JProc 1; JProc 0; JProc 0; JWait].
Definition do_job inr outr (f : fs) (typed : list N) : option job :=
  match begin_job some_limits 63 64 (job_items inr outr) f [cat; head1] typed with
  | Some t0 => run_job some_limits 63 64 4 shell (fst (started_job inr outr)) (job_items inr outr) t0 job_sched
  | None => None
  end.
Lemma job_launched inr outr : (inr = None \/ inr = Some in_red) -> (outr = None \/ outr = Some out_red) ->
  launched_job some_limits (fun _ => true) 63 64 ["cat"%string] [["head"%string]] inr outr shell (fst (started_job inr outr)) (job_items inr outr).
Proof.
  intros Hi Ho. split; [discriminate|]. split; [discriminate|]. split; [discriminate|]. split; [|split; [|split; [|split; [|split; [|split; [|split; [lia|split; [lia|] ] ] ] ] ] ] ].
  - intros n o. do 3 (destruct n as [|n]; [cbn; intros E; injection E as <-; intros []|]). unfold refers. Local Transparent tget. unfold tget. cbn. now destruct n.
  - intros n p f. do 3 (destruct n as [|n]; [discriminate|]). unfold refers. unfold tget. cbn. now destruct n.
  - intros r E. destruct Hi as [Hi|Hi]; rewrite Hi in E; [discriminate|]. injection E as <-. exists (PName "in"). repeat split.
  - intros r E. destruct Ho as [Ho|Ho]; rewrite Ho in E; [discriminate|]. injection E as <-. exists (PName "out"). repeat split. discriminate.
  - intros r r' E E'. destruct Hi as [Hi|Hi]; rewrite Hi in E; [discriminate|]. destruct Ho as [Ho|Ho]; rewrite Ho in E'; [discriminate|]. injection E as <-. injection E' as <-. discriminate.
  - exists (match snd (started_job inr outr) with Ok (r, _) => r | Err _ => None end). destruct Hi as [-> | ->], Ho as [-> | ->]; vm_compute; reflexivity.
  - assert (X3 : forallb roomy (job_items inr outr) = true) by (destruct Hi as [-> | ->], Ho as [-> | ->]; vm_compute; reflexivity).
    rewrite forallb_forall in X3. intros rs t argv Hit. specialize (X3 _ Hit). apply andb_prop in X3 as [Y1 Y2]. apply Nat.ltb_lt in Y1.
    assert (lim some_limits = 64) by reflexivity. clear Hit.
    split; [|lia]. split; [lia|]. split; [lia|]. exists 40. split; [lia|]. split; [lia|]. destruct (tget t 40); [discriminate|reflexivity].
Qed.
Example C100_nonvacuous :
  all_do [cat; head1] [97; 10; 98; 10]%N [97; 10]%N [true; true] /\
  to_file (PName "out") = Ok out_red /\ input_is job_fs (Some in_red) [] [97; 10; 98; 10]%N /\
  match do_job (Some in_red) (Some out_red) job_fs [] with
  | Some t => j_wait t <> None /\ old_content (j_fs t) (PName "out") = [97; 10; 3]%N /\ j_fs t (PName "in") = job_fs (PName "in") /\ j_term t = []
  | None => False
  end /\
  match do_job None None job_fs [97; 10; 98; 10]%N with
  | Some t => j_wait t <> None /\ j_term t = [(OInit 1, 97); (OInit 1, 10)]%N
  | None => False
  end.
Proof.
  split; [econstructor; [apply does_cat|]; econstructor; [|constructor]|].
  { rewrite (unfold_eq head1). cbn. constructor. constructor. cbn. rewrite (unfold_eq head1). cbn. constructor. constructor. constructor. }
  split; [reflexivity|]. split; [exists (PName "in"); split; reflexivity|]. split; vm_compute; repeat split; discriminate.
Qed.
