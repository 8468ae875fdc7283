(** C91, C92: what bytes() of, and iterating over, a pipeline of programs and python
    functions in any order gives, and when it ends. *)
From Verif Require Import Py RedirModel Os PerformModel PerformSpec RunModel RunSpec RunTopSpec RunEnds PropsRun IterModel IterSpec IterProofs IterOut NetModel NetSpec NetProofs NetTop PropsNet SrcModel MixModel MixSpec MixProofs MixTop MixStuck.

(** C91.  bytes(c0 | f1 | c2 | ...) is what the items compute, one after the other,
    the functions from the lines of their input, for every schedule, also when
    functions raise and when items do not read everything. *)
Theorem C91_bytes : forall L pf logfd maxfd c cs s s' its x cap pipe_buf codes inp out oks,
  mixed L pf logfd maxfd c cs s s' its x -> Forall2 runs_as (c :: cs) codes -> can_read codes inp -> all_cdo codes inp out oks ->
  forall ls t, bytes_mrun L logfd maxfd cap pipe_buf s s' its x (mix_begin L logfd maxfd s' its byte_init codes inp) ls = Some t ->
  prefix (List.concat (items_of (r_out (m_rd t)))) out /\
  (ended (r_out (m_rd t)) -> List.concat (items_of (r_out (m_rd t))) = out).
Proof.
  intros L pf logfd maxfd c cs s s' its x cap pipe_buf codes inp out oks HL Hc Hi Ha ls t E.
  destruct (mix_bytes L pf logfd maxfd c cs s s' its x HL codes Hc cap pipe_buf inp out oks Hi Ha 0) as [B R]. exact (proj1 (R ls t E)).
Qed.
Print Assumptions C91_bytes.
(** Iterating gives the lines of it. *)
Theorem C91_lines : forall L pf logfd maxfd c cs s s' its x cap pipe_buf codes inp out oks lines,
  mixed L pf logfd maxfd c cs s s' its x -> Forall2 runs_as (c :: cs) codes -> can_read codes inp -> all_cdo codes inp out oks -> is_lines out lines ->
  forall ls t, lines_mrun L logfd maxfd cap pipe_buf s s' its x (mix_begin L logfd maxfd s' its line_init codes inp) ls = Some t ->
  prefix (items_of (r_out (m_rd t))) lines /\
  (ended (r_out (m_rd t)) -> items_of (r_out (m_rd t)) = lines).
Proof.
  intros L pf logfd maxfd c cs s s' its x cap pipe_buf codes inp out oks lines HL Hc Hi Ha Hli ls t E.
  destruct (mix_lines L pf logfd maxfd c cs s s' its x HL codes Hc cap pipe_buf inp out oks Hi Ha 0) as [B R]. exact (proj1 (R ls t E) lines Hli).
Qed.
Print Assumptions C91_lines.
(** A function that yields g(line) for each line. *)
CoFixpoint each_line (g : bytes -> option bytes) : fn :=
  FAsk (fun o => match o with Some l => FGive (g l) (each_line g) | None => FEnd EStop end).
Definition fn_unfold (f : fn) : fn := match f with FAsk k => FAsk k | FGive v k => FGive v k | FEnd e => FEnd e end.
Lemma fn_unfold_eq f : f = fn_unfold f.
Proof. now destruct f. Qed.
Lemma each_line_does g lines : fdoes (each_line g) lines (map g lines) EStop.
Proof.
  induction lines as [|l lines IH]; rewrite (fn_unfold_eq (each_line g)); cbn.
  - constructor. constructor.
  - constructor. constructor. exact IH.
Qed.
Lemma each_line_asks g lines : asks_all (each_line g) lines.
Proof. induction lines as [|l lines IH]; rewrite (fn_unfold_eq (each_line g)); cbn; constructor. constructor. exact IH. Qed.
(** list(c | f), f yielding g(line) for each line, is g of the lines of what c
    writes, without the None. *)
Theorem C91_map : forall L pf logfd maxfd ws s s' its x cap pipe_buf p inp mid ok lines g,
  mixed L pf logfd maxfd (StCmd ws) [StFun] s s' its x -> does p inp mid ok -> is_lines mid lines ->
  (forall l v, In l lines -> g l = Some v -> ~ In nl v) ->
  forall ls t, lines_mrun L logfd maxfd cap pipe_buf s s' its x (mix_begin L logfd maxfd s' its line_init [CProg p; CFun (each_line g)] inp) ls = Some t ->
  prefix (items_of (r_out (m_rd t))) (values (map g lines)) /\
  (ended (r_out (m_rd t)) -> items_of (r_out (m_rd t)) = values (map g lines)).
Proof.
  intros L pf logfd maxfd ws s s' its x cap pipe_buf p inp mid ok lines g HL Hd Hli Hg ls t E.
  eapply (C91_lines L pf logfd maxfd (StCmd ws) [StFun] s s' its x cap pipe_buf [CProg p; CFun (each_line g)] inp (rendered (map g lines))); [exact HL|repeat constructor|exact Logic.I| | |exact E].
  - econstructor; [constructor; exact Hd|]. econstructor; [|constructor]. econstructor; [exact Hli|apply each_line_does].
  - split; [|left; rewrite rendered_joined; reflexivity]. apply Forall_forall. intros v Hv. unfold values in Hv. apply in_flat_map in Hv as ([b|] & Hb & Hin); [|destruct Hin]. destruct Hin as [<-|[]].
    apply in_map_iff in Hb as (l & El & Il). exact (Hg l b Il El).
Qed.
Print Assumptions C91_map.
(** When it ends, nobody is left behind: all processes have exited, and all
    functions have closed their output. *)
Theorem C91_nobody_left : forall L pf logfd maxfd c cs s s' its x cap pipe_buf codes inp out oks,
  mixed L pf logfd maxfd c cs s s' its x -> Forall2 runs_as (c :: cs) codes -> can_read codes inp -> all_cdo codes inp out oks ->
  (forall ls t, bytes_mrun L logfd maxfd cap pipe_buf s s' its x (mix_begin L logfd maxfd s' its byte_init codes inp) ls = Some t -> ended (r_out (m_rd t)) ->
     forall i, match nth i (m_items t) (SProc None) with SProc p => p = None | SFun g => g_open g = false /\ g_done g <> None end) /\
  (forall ls t, lines_mrun L logfd maxfd cap pipe_buf s s' its x (mix_begin L logfd maxfd s' its line_init codes inp) ls = Some t -> ended (r_out (m_rd t)) ->
     forall i, match nth i (m_items t) (SProc None) with SProc p => p = None | SFun g => g_open g = false /\ g_done g <> None end).
Proof.
  intros L pf logfd maxfd c cs s s' its x cap pipe_buf codes inp out oks HL Hc Hi Ha.
  destruct (mix_bytes L pf logfd maxfd c cs s s' its x HL codes Hc cap pipe_buf inp out oks Hi Ha 0) as [B R].
  destruct (mix_lines L pf logfd maxfd c cs s s' its x HL codes Hc cap pipe_buf inp out oks Hi Ha 0) as [B' R'].
  split; intros ls t E; [apply (R ls t E)|apply (R' ls t E)].
Qed.
Print Assumptions C91_nobody_left.
(** If every item but the first reads all of its input, and what the functions yield
    is short compared with the space poll(2) requires: from every state that can be
    reached the end can be reached. *)
Theorem C91_no_deadlock : forall L pf logfd maxfd c cs s s' its x cap pipe_buf m codes inp out oks,
  mixed L pf logfd maxfd c cs s s' its x -> Forall2 runs_as (c :: cs) codes -> can_read codes inp -> all_cdo codes inp out oks ->
  well_fed m codes inp -> 3 * m <= pipe_buf -> pipe_buf <= cap -> 0 < cap ->
  (forall ls t, bytes_mrun L logfd maxfd cap pipe_buf s s' its x (mix_begin L logfd maxfd s' its byte_init codes inp) ls = Some t ->
     exists ls' t', bytes_mrun L logfd maxfd cap pipe_buf s s' its x t ls' = Some t' /\ ended (r_out (m_rd t'))) /\
  (forall ls t, lines_mrun L logfd maxfd cap pipe_buf s s' its x (mix_begin L logfd maxfd s' its line_init codes inp) ls = Some t ->
     exists ls' t', lines_mrun L logfd maxfd cap pipe_buf s s' its x t ls' = Some t' /\ ended (r_out (m_rd t'))).
Proof.
  intros L pf logfd maxfd c cs s s' its x cap pipe_buf m codes inp out oks HL Hc Hi Ha HW H1 H2 H3.
  destruct (mix_bytes L pf logfd maxfd c cs s s' its x HL codes Hc cap pipe_buf inp out oks Hi Ha m) as [B R].
  destruct (mix_lines L pf logfd maxfd c cs s s' its x HL codes Hc cap pipe_buf inp out oks Hi Ha m) as [B' R'].
  split; intros ls t E; [apply (R ls t E)|apply (R' ls t E)]; auto.
Qed.
Print Assumptions C91_no_deadlock.
(** Then, too, the verdict is that of the items: the iteration ends normally only if
    all of them succeed, and with an exception only if one of them fails. *)
Theorem C91_verdict : forall L pf logfd maxfd c cs s s' its x cap pipe_buf m codes inp out oks,
  mixed L pf logfd maxfd c cs s s' its x -> Forall2 runs_as (c :: cs) codes -> can_read codes inp -> all_cdo codes inp out oks -> well_fed m codes inp ->
  (forall ls t, bytes_mrun L logfd maxfd cap pipe_buf s s' its x (mix_begin L logfd maxfd s' its byte_init codes inp) ls = Some t ->
     (In GStop (r_out (m_rd t)) -> forall b, In b oks -> b = true) /\ (In GFailed (r_out (m_rd t)) -> In false oks)) /\
  (forall ls t, lines_mrun L logfd maxfd cap pipe_buf s s' its x (mix_begin L logfd maxfd s' its line_init codes inp) ls = Some t ->
     (In GStop (r_out (m_rd t)) -> forall b, In b oks -> b = true) /\ (In GFailed (r_out (m_rd t)) -> In false oks)).
Proof.
  intros L pf logfd maxfd c cs s s' its x cap pipe_buf m codes inp out oks HL Hc Hi Ha HW.
  destruct (mix_bytes L pf logfd maxfd c cs s s' its x HL codes Hc cap pipe_buf inp out oks Hi Ha m) as [B R].
  destruct (mix_lines L pf logfd maxfd c cs s s' its x HL codes Hc cap pipe_buf inp out oks Hi Ha m) as [B' R'].
  split; intros ls t E; [apply (R ls t E)|apply (R' ls t E)]; exact HW.
Qed.
Print Assumptions C91_verdict.
(** The programs and the inputs of the functions make a bounded number of steps. *)
Theorem C91_finite : forall L pf logfd maxfd c cs s s' its x cap pipe_buf m codes inp out oks,
  mixed L pf logfd maxfd c cs s s' its x -> Forall2 runs_as (c :: cs) codes -> can_read codes inp -> all_cdo codes inp out oks -> well_fed m codes inp ->
  exists B,
  (forall ls t, bytes_mrun L logfd maxfd cap pipe_buf s s' its x (mix_begin L logfd maxfd s' its byte_init codes inp) ls = Some t -> List.length (filter is_work ls) <= B) /\
  (forall ls t, lines_mrun L logfd maxfd cap pipe_buf s s' its x (mix_begin L logfd maxfd s' its line_init codes inp) ls = Some t -> List.length (filter is_work ls) <= B).
Proof.
  intros L pf logfd maxfd c cs s s' its x cap pipe_buf m codes inp out oks HL Hc Hi Ha HW.
  destruct (mix_bytes L pf logfd maxfd c cs s s' its x HL codes Hc cap pipe_buf inp out oks Hi Ha m) as [B R].
  destruct (mix_lines L pf logfd maxfd c cs s s' its x HL codes Hc cap pipe_buf inp out oks Hi Ha m) as [B' R'].
  exists (B + B'). split; intros ls t E; [destruct (R ls t E) as (_ & _ & _ & _ & X)|destruct (R' ls t E) as (_ & _ & _ & _ & X)]; specialize (X HW);
    change counts with is_work in X; lia.
Qed.
Print Assumptions C91_finite.

(** C92.  A function may stop reading before the end of its input; like a program
    that exits, this should end the program that feeds it, and so the pipeline.  It
    does not: its input stays open.  A program that goes on as long as its writes
    succeed, and feeds a function, whatever it is, runs for ever: the iteration never
    ends. *)
Theorem C92_early_end_refuted : forall L pf logfd maxfd c cs s s' its x cap pipe_buf codes inp j p f,
  mixed L pf logfd maxfd c cs s s' its x -> Forall2 runs_as (c :: cs) codes ->
  nth_error codes j = Some (CProg p) -> nth_error codes (S j) = Some (CFun f) -> endless p ->
  (forall ls t, bytes_mrun L logfd maxfd cap pipe_buf s s' its x (mix_begin L logfd maxfd s' its byte_init codes inp) ls = Some t ->
     ~ ended (r_out (m_rd t)) /\ exists q, nth j (m_items t) (SProc None) = SProc (Some q)) /\
  (forall ls t, lines_mrun L logfd maxfd cap pipe_buf s s' its x (mix_begin L logfd maxfd s' its line_init codes inp) ls = Some t ->
     ~ ended (r_out (m_rd t)) /\ exists q, nth j (m_items t) (SProc None) = SProc (Some q)).
Proof.
  intros L pf logfd maxfd c cs s s' its x cap pipe_buf codes inp j p f HL Hc Hp Hf He. split; intros ls t E;
    (eapply (never_ends L pf logfd maxfd c cs s s' its x HL codes Hc cap pipe_buf j p f Hp Hf (fun q _ _ _ => endless q)); [ | | | | | | |exact E]; auto).
  all: try (intros ok _ _ _; apply endless_exit). all: try (intros y k c0 b f0 X _; now inversion X). all: intros k o c0 b f0 X; now inversion X.
Qed.
Print Assumptions C92_early_end_refuted.
(** It is enough that the program writes more than a pipe holds, and 1023 bytes, after
    the lines the function asks for and one line more. *)
Theorem C92_too_much_refuted : forall L pf logfd maxfd c cs s s' its x cap pipe_buf codes inp j p f q first rest,
  mixed L pf logfd maxfd c cs s s' its x -> Forall2 runs_as (c :: cs) codes ->
  nth_error codes j = Some (CProg p) -> nth_error codes (S j) = Some (CFun f) -> asks_at_most q f ->
  writes_first p (first ++ rest) -> q < count_occ N.eq_dec first nl -> cap + 1023 < List.length rest ->
  (forall ls t, bytes_mrun L logfd maxfd cap pipe_buf s s' its x (mix_begin L logfd maxfd s' its byte_init codes inp) ls = Some t ->
     ~ ended (r_out (m_rd t)) /\ exists q, nth j (m_items t) (SProc None) = SProc (Some q)) /\
  (forall ls t, lines_mrun L logfd maxfd cap pipe_buf s s' its x (mix_begin L logfd maxfd s' its line_init codes inp) ls = Some t ->
     ~ ended (r_out (m_rd t)) /\ exists q, nth j (m_items t) (SProc None) = SProc (Some q)).
Proof.
  intros L pf logfd maxfd c cs s s' its x cap pipe_buf codes inp j p f q first rest HL Hc Hp Hf Hq Hw H1 H2.
  assert (Q0 : too_much cap first rest q p [] [] f).
  { exists [], (first ++ rest), q. repeat split; auto; [cbn; lia|unfold lines_in; cbn; lia|cbn; lia]. }
  split; intros ls t E;
    (eapply (never_ends L pf logfd maxfd c cs s s' its x HL codes Hc cap pipe_buf j p f Hp Hf (too_much cap first rest q));
      [intros; eapply tm_exit; eassumption|intros; eapply tm_write; eassumption|intros; eapply tm_read; eassumption|intros; eapply tm_feed; eassumption|intros; eapply tm_ask; eassumption|intros; eapply tm_give; eassumption|exact Q0|exact E]).
Qed.
Print Assumptions C92_too_much_refuted.

(** A shell with three files starts pipelines of all kinds. *)
Definition starts_ok (c : stage) (cs : list stage) : bool :=
  match start some_limits (fun _ => true) true (mixed_line c cs) shell with
  | (_, Ok (ret, its)) => match caller_fds ret with [_] => true | _ => false end && forallb (fun it => match it with IProc _ _ _ => roomy it | _ => true end) its
  | _ => false
  end.
Definition after_start (c : stage) (cs : list stage) : st := fst (start some_limits (fun _ => true) true (mixed_line c cs) shell).
Definition started_its (c : stage) (cs : list stage) : list item :=
  match snd (start some_limits (fun _ => true) true (mixed_line c cs) shell) with Ok (_, its) => its | Err _ => [] end.
Definition started_x (c : stage) (cs : list stage) : nat :=
  match snd (start some_limits (fun _ => true) true (mixed_line c cs) shell) with Ok (r, _) => hd 0 (caller_fds r) | Err _ => 0 end.
Lemma shell_starts c cs : starts_ok c cs = true -> mixed some_limits (fun _ => true) 63 64 c cs shell (after_start c cs) (started_its c cs) (started_x c cs).
Proof.
  unfold starts_ok, after_start, started_its, started_x. destruct (start some_limits (fun _ => true) true (mixed_line c cs) shell) as [s' [[ret its]|e]] eqn:E; [|discriminate]. cbn [fst snd].
  intros X. apply andb_prop in X as [X1 X2].
  split; [discriminate|]. split; [discriminate|]. split; [discriminate|]. split; [|split; [|split; [lia|split; [lia|]]]].
  - intros n o. do 3 (destruct n as [|n]; [cbn; intros E0; injection E0 as <-; intros []|]). unfold refers. Local Transparent tget. unfold tget. cbn. now destruct n.
  - exists ret. split; [exact E|]. destruct (caller_fds ret) as [|y [|z l]]; try discriminate. reflexivity.
  - rewrite forallb_forall in X2. intros rs t argv Hit. specialize (X2 _ Hit). cbn beta iota in X2. unfold roomy in X2. apply andb_prop in X2 as [Y1 Y2]. apply Nat.ltb_lt in Y1.
    assert (lim some_limits = 64) by reflexivity. clear Hit E.
    split; [|lia]. split; [lia|]. split; [lia|]. exists 40. split; [lia|]. split; [lia|]. destruct (tget t 40); [discriminate|reflexivity].
Qed.
(** list(cat | f | cat), f putting "!" after each line and skipping empty ones, on
    "a\n\nb", with pipes of sixteen bytes. *)
Definition bang (l : bytes) : option bytes := match l with [] => None | _ => Some (l ++ [33%N]) end.
Definition mix_codes : list code := [CProg cat; CFun (each_line bang); CProg cat].
Definition mix_input : list BinNums.N := [97; 10; 10; 98]%N.
Definition mix_output : list BinNums.N := [97; 33; 10; 98; 33; 10]%N.
Definition mix_schedule : list mlabel :=
  [MRd LNext; MProc 0; MProc 0; MProc 0; MProc 0; MProc 0; MProc 0; MProc 0; MProc 0; MProc 0; MProc 0; MReadable 1 4; MPoll 1; MWritable 1; MStart 1;
   MRun 1; MRun 1; MPush; MProc 2; MProc 2; MPush; MPush; MPush; MProc 2; MProc 2; MProc 2; MProc 2; MPoll 1; MWritable 1; MStart 1;
   MRun 1; MReadable 1 0; MRun 1; MPoll 1; MWritable 1; MStart 1; MRun 1; MRun 1; MPush; MPush; MPush; MPush;
   MProc 2; MProc 2; MProc 2; MProc 2; MProc 2; MProc 2; MPoll 1; MWritable 1; MStart 1; MRun 1; MRun 1; MProc 2; MProc 2; MTold 0; MTold 1; MTold 2;
   MRd (LReadable 6); MRd LWake; MRd LNext; MRd LNext; MRd (LReadable 0); MRd LWake; MRd (LAtEof true)].
Lemma mix_in_lines : is_lines mix_input [[97%N]; []; [98%N]].
Proof. split; [repeat constructor; cbn; intros X; intuition discriminate|]. right. split; [reflexivity|]. split; [discriminate|]. discriminate. Qed.
Lemma mix_all_do : all_cdo mix_codes mix_input mix_output [true; true; true].
Proof.
  econstructor; [constructor; apply does_cat|]. econstructor; [|econstructor; [constructor; apply does_cat|constructor] ].
  exact (cdoes_fun (each_line bang) mix_input _ _ EStop mix_in_lines (each_line_does bang _)).
Qed.
Lemma mix_well_fed : well_fed 3 mix_codes mix_input.
Proof.
  split; [exact Logic.I|]. exists mix_input, true. split; [constructor; apply does_cat|].
  apply all_whole_cons with (mid := mix_output) (ok := true).
  - exists [[97%N]; []; [98%N]]. split; [exact mix_in_lines|apply each_line_asks].
  - intros lines vals e b Hl Hv Hb. rewrite (is_lines_unique _ _ _ Hl mix_in_lines) in Hv. destruct (fdoes_fun _ _ _ _ (each_line_does bang _) _ _ Hv) as [<- _].
    cbn in Hb. destruct Hb as [Hb|[Hb|[Hb|[]]]]; try discriminate; injection Hb as <-; cbn; lia.
  - exact (cdoes_fun (each_line bang) mix_input _ _ EStop mix_in_lines (each_line_does bang _)).
  - apply all_whole_cons with (mid := mix_output) (ok := true); [apply reads_all_cat|exact Logic.I|constructor; apply does_cat|constructor].
Qed.
Example C91_nonvacuous :
  let c := StCmd ["cat"%string] in let cs := [StFun; StCmd ["cat"%string]] in
  mixed some_limits (fun _ => true) 63 64 c cs shell (after_start c cs) (started_its c cs) (started_x c cs) /\
  Forall2 runs_as (c :: cs) mix_codes /\ can_read mix_codes mix_input /\ all_cdo mix_codes mix_input mix_output [true; true; true] /\ well_fed 3 mix_codes mix_input /\
  match lines_mrun some_limits 63 64 16 9 shell (after_start c cs) (started_its c cs) (started_x c cs)
      (mix_begin some_limits 63 64 (after_start c cs) (started_its c cs) line_init mix_codes mix_input) mix_schedule with
  | Some t => r_out (m_rd t) = [GItem [97%N; 33%N]; GItem [98%N; 33%N]; GStop]
  | None => False
  end.
Proof.
  split; [apply shell_starts; vm_compute; reflexivity|]. split; [repeat constructor|]. split; [exact Logic.I|]. split; [exact mix_all_do|]. split; [exact mix_well_fed|]. vm_compute. reflexivity.
Qed.
(** cat | f, f raising after its first line: the exception comes after what it has
    yielded. *)
Example C91_fails_nonvacuous : forall ex,
  let c := StCmd ["cat"%string] in let cs := [StFun] in let codes := [CProg cat; CFun (FAsk (fun o => FGive o (FEnd (ERaise ex))))] in
  mixed some_limits (fun _ => true) 63 64 c cs shell (after_start c cs) (started_its c cs) (started_x c cs) /\
  Forall2 runs_as (c :: cs) codes /\ all_cdo codes [97%N] [97%N; 10%N] [true; false] /\
  match bytes_mrun some_limits 63 64 16 9 shell (after_start c cs) (started_its c cs) (started_x c cs)
      (mix_begin some_limits 63 64 (after_start c cs) (started_its c cs) byte_init codes [97%N])
      [MProc 0; MProc 0; MProc 0; MProc 0; MPoll 1; MWritable 1; MStart 1; MRun 1; MReadable 1 1; MWake 1; MRun 1; MReadable 1 0; MWake 1; MRun 1; MRun 1; MPush; MPush; MPush;
       MPoll 1; MWritable 1; MStart 1; MRun 1; MTold 0; MRd LNext; MRd (LReadable 2); MRd LWake; MRd LNext; MRd (LReadable 0); MRd LWake; MRd LNext; MRd (LAtEof false)] with
  | Some t => r_out (m_rd t) = [GItem [97%N; 10%N]; GItem []; GFailed]
  | None => False
  end.
Proof.
  intros ex. split; [apply shell_starts; vm_compute; reflexivity|]. split; [repeat constructor|]. split; [|vm_compute; reflexivity].
  econstructor; [constructor; apply does_cat|]. econstructor; [|constructor].
  refine (cdoes_fun _ [97%N] [[97%N]] [Some [97%N]] (ERaise ex) _ _); [|do 3 constructor].
  split; [repeat constructor; cbn; intros X; intuition discriminate|]. right. split; [reflexivity|]. split; discriminate.
Qed.
(** yes | f, f returning at once: f's end is noticed, the iteration over the result
    gets to its end, and waits for yes. *)
Example C92_nonvacuous :
  let c := StCmd ["yes"%string] in let cs := [StFun] in let codes := [CProg yes; CFun (FEnd EStop)] in
  mixed some_limits (fun _ => true) 63 64 c cs shell (after_start c cs) (started_its c cs) (started_x c cs) /\
  Forall2 runs_as (c :: cs) codes /\ endless yes /\ asks_at_most 0 (FEnd EStop) /\
  match lines_mrun some_limits 63 64 1 1 shell (after_start c cs) (started_its c cs) (started_x c cs)
      (mix_begin some_limits 63 64 (after_start c cs) (started_its c cs) line_init codes [])
      [MProc 0; MReadable 1 1; MPoll 1; MWritable 1; MStart 1; MRun 1; MTold 1; MRd LNext; MRd (LReadable 0); MRd LWake; MCheck; MProc 0; MReadable 1 1; MProc 0] with
  | Some t => r_out (m_rd t) = [] /\ r_phase (m_rd t) = PAtEof
  | None => False
  end.
Proof.
  split; [apply shell_starts; vm_compute; reflexivity|]. split; [repeat constructor|]. split; [cofix IH; rewrite yes_eq; constructor; constructor; exact IH|]. split; [constructor|]. vm_compute. now split.
Qed.
(** As many lines as one likes are written first by yes. *)
Example C92_too_much_nonvacuous : forall k,
  writes_first yes ([121%N; 10%N] ++ List.concat (repeat [121%N; 10%N] k)) /\ 0 < count_occ N.eq_dec [121%N; 10%N] nl /\ List.length (List.concat (repeat [121%N; 10%N] k)) = 2 * k.
Proof.
  intros k. split; [|split; [cbn; lia|] ].
  - change ([121%N; 10%N] ++ List.concat (repeat [121%N; 10%N] k)) with (List.concat (repeat [121%N; 10%N] (S k))). induction (S k) as [|m IH]; [constructor|]. cbn [repeat List.concat List.app]. rewrite yes_eq. constructor. constructor. exact IH.
  - induction k as [|k IH]; [reflexivity|]. cbn [repeat List.concat]. rewrite app_length, IH. cbn [List.length]. lia.
Qed.
