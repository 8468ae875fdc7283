(** C98, C99: what a python function in a pipeline outputs, depending on what kind of
    function it is. *)
From Verif Require Import Py RedirModel Os PerformModel PerformSpec RunModel RunSpec RunTopSpec RunEnds PropsRun IterModel IterSpec IterProofs IterOut NetModel NetSpec NetProofs NetTop PropsNet SrcModel Utf8Model Utf8Proofs MixModel MixSpec MixProofs MixTop MixStuck PropsMix KindModel KindSpec KindProofs.

(** list of lines of bytes that are these strings in utf-8 *)
Definition read_as (mid : list N) (texts : list text) : Prop :=
  exists lines, is_lines mid lines /\ Forall2 (fun b t => decode b = Ok t) lines texts.

Lemma cf_bytes L pf logfd maxfd ws s s' its x cap pipe_buf p f inp mid ok texts vals e :
  mixed L pf logfd maxfd (StCmd ws) [StFun] s s' its x -> does p inp mid ok -> read_as mid texts ->
  (forall lines, Forall2 (fun b t => decode b = Ok t) lines texts -> fdoes f lines vals e) ->
  forall ls t, bytes_mrun L logfd maxfd cap pipe_buf s s' its x (mix_begin L logfd maxfd s' its byte_init [CProg p; CFun f] inp) ls = Some t ->
  prefix (List.concat (items_of (r_out (m_rd t)))) (rendered vals) /\
  (ended (r_out (m_rd t)) -> List.concat (items_of (r_out (m_rd t))) = rendered vals).
Proof.
  intros HL Hd (lines & Hl & Ht) Hf ls t E.
  eapply (C91_bytes L pf logfd maxfd (StCmd ws) [StFun] s s' its x cap pipe_buf [CProg p; CFun f] inp (rendered vals)); [exact HL|repeat constructor|exact Logic.I| |exact E].
  econstructor; [constructor; exact Hd|]. econstructor; [|constructor]. econstructor; [exact Hl|apply Hf; exact Ht].
Qed.

(** C98.  bytes(c | f) is what f produces, one value per line: for asynchronous
    generators, generators that do not loop over their input, lists, coroutines, and
    values that cannot be iterated over, for every schedule.  What is missing is what
    follows. *)
Theorem C98_output_partial : forall L pf logfd maxfd ws s s' its x cap pipe_buf p o inp mid ok texts vs e out,
  mixed L pf logfd maxfd (StCmd ws) [StFun] s s' its x -> does p inp mid ok -> read_as mid texts ->
  gives o texts vs e -> works o texts -> written_as vs out ->
  forall ls t, bytes_mrun L logfd maxfd cap pipe_buf s s' its x (mix_begin L logfd maxfd s' its byte_init [CProg p; CFun (obj_fn o)] inp) ls = Some t ->
  prefix (List.concat (items_of (r_out (m_rd t)))) out /\
  (ended (r_out (m_rd t)) -> List.concat (items_of (r_out (m_rd t))) = out).
Proof.
  intros L pf logfd maxfd ws s s' its x cap pipe_buf p o inp mid ok texts vs e out HL Hd Hr Hg Hw Ho ls t E.
  rewrite <- (written_rendered _ _ Ho e). eapply cf_bytes; eauto. intros lines Hl. now apply works_fdoes with texts.
Qed.
Print Assumptions C98_output_partial.
(** A function that returns a string outputs each character on a line of its own: only
    for a string of one character is that the string. *)
Theorem C98_string_refuted : forall L pf logfd maxfd ws s s' its x cap pipe_buf p t b inp mid ok texts out,
  mixed L pf logfd maxfd (StCmd ws) [StFun] s s' its x -> does p inp mid ok -> read_as mid texts ->
  gives (OStr t) texts [VStr t] EStop -> written_as [VStr t] out -> encode t = Ok b -> List.length t <> 1 ->
  forall ls u, bytes_mrun L logfd maxfd cap pipe_buf s s' its x (mix_begin L logfd maxfd s' its byte_init [CProg p; CFun (obj_fn (OStr t))] inp) ls = Some u ->
  ended (r_out (m_rd u)) -> List.concat (items_of (r_out (m_rd u))) <> out.
Proof.
  intros L pf logfd maxfd ws s s' its x cap pipe_buf p t b inp mid ok texts out HL Hd Hr Hg Ho Hb Ht ls u E He.
  destruct (cf_bytes L pf logfd maxfd ws s s' its x cap pipe_buf p (obj_fn (OStr t)) inp mid ok texts _ _ HL Hd Hr (fun lines _ => str_fdoes t lines) ls u E) as [_ R].
  rewrite (R He). pose proof (chars_length t b Hb) as C. intros X. rewrite X in C. rewrite <- (written_rendered _ _ Ho EStop) in C. cbn [converted convert] in C. rewrite Hb in C. cbn [bind_res fst] in C. rewrite rendered_cons, !app_length in C. cbn [List.length rendered flat_map] in C. lia.
Qed.
Print Assumptions C98_string_refuted.
(** A function that returns bytes outputs the number of each of them: never what it
    returned. *)
Theorem C98_bytes_refuted : forall L pf logfd maxfd ws s s' its x cap pipe_buf p b inp mid ok texts out,
  mixed L pf logfd maxfd (StCmd ws) [StFun] s s' its x -> does p inp mid ok -> read_as mid texts ->
  Forall (fun n => n < 256)%N b -> gives (OBytes b) texts [VBytes b] EStop -> written_as [VBytes b] out ->
  forall ls t, bytes_mrun L logfd maxfd cap pipe_buf s s' its x (mix_begin L logfd maxfd s' its byte_init [CProg p; CFun (obj_fn (OBytes b))] inp) ls = Some t ->
  ended (r_out (m_rd t)) -> List.concat (items_of (r_out (m_rd t))) <> out.
Proof.
  intros L pf logfd maxfd ws s s' its x cap pipe_buf p b inp mid ok texts out HL Hd Hr H256 Hg Ho ls t E He.
  destruct (cf_bytes L pf logfd maxfd ws s s' its x cap pipe_buf p (obj_fn (OBytes b)) inp mid ok texts _ _ HL Hd Hr (fun lines _ => bytes_fdoes b lines) ls t E) as [_ R].
  rewrite (R He). rewrite <- (written_rendered _ _ Ho EStop). cbn [converted convert fst]. rewrite rendered_cons, app_nil_r. exact (nums_differ b H256).
Qed.
Print Assumptions C98_bytes_refuted.
(** The kinds that output nothing at all: a generator that starts with a for loop over
    its input, an object with __aiter__ only, and a pipeline. *)
Inductive silent : obj -> Prop :=
| silent_loop k : silent (OGen (SLoop k))
| silent_aiter g : silent (OAiter g)
| silent_pipe ls : silent (OPipe ls).
Theorem C98_silent_refuted : forall L pf logfd maxfd ws s s' its x cap pipe_buf p o inp mid ok texts vs e out,
  mixed L pf logfd maxfd (StCmd ws) [StFun] s s' its x -> does p inp mid ok -> read_as mid texts ->
  silent o -> gives o texts vs e -> written_as vs out ->
  forall ls t, bytes_mrun L logfd maxfd cap pipe_buf s s' its x (mix_begin L logfd maxfd s' its byte_init [CProg p; CFun (obj_fn o)] inp) ls = Some t ->
  List.concat (items_of (r_out (m_rd t))) = [] /\ (out <> [] -> List.concat (items_of (r_out (m_rd t))) <> out).
Proof.
  intros L pf logfd maxfd ws s s' its x cap pipe_buf p o inp mid ok texts vs e out HL Hd Hr Hs Hg Ho ls t E.
  assert (X : exists e', obj_fn o = FEnd e').
  { destruct Hs; cbn [obj_fn]; try rewrite sync_loop; eexists; reflexivity. }
  destruct X as [e' X]. rewrite X in E.
  destruct (cf_bytes L pf logfd maxfd ws s s' its x cap pipe_buf p (FEnd e') inp mid ok texts [] e' HL Hd Hr (fun lines _ => nothing_fdoes e' lines) ls t E) as [[r R] _].
  cbn [rendered flat_map] in R. symmetry in R. apply app_eq_nil in R as [R _]. split; [exact R|]. intros Ne. rewrite R. congruence.
Qed.
Print Assumptions C98_silent_refuted.

(** C99.  c | map(func) should output func of each line, up to the first line func raises
    for.  It never outputs anything, whatever func is. *)
Definition mapped (func : text -> res pyval) (texts : list text) (vs : list pyval) (e : iend) : Prop :=
  Forall2 (fun t v => func t = Ok v) texts vs /\ e = EStop \/
  exists done_ t rest x, texts = done_ ++ t :: rest /\ Forall2 (fun t v => func t = Ok v) done_ vs /\ func t = Err x /\ e = ERaise x.
Definition sg_open (g : sgen) : sgen := match g with SGive v k => SGive v k | SCoro c k => SCoro c k | SLoop k => SLoop k | SEnd e => SEnd e end.
Lemma map_gen_eq func : map_gen func = SLoop (fun o => match o with
                  | None => SEnd EStop
                  | Some l => match func l with Ok v => SGive v (map_gen func) | Err e => SEnd (ERaise e) end
                  end).
Proof. assert (X : forall g, g = sg_open g) by now intros []. etransitivity; [apply X|]. reflexivity. Qed.
(** What the generator that map(func) returns is to give is func of the lines. *)
Lemma mapped_gives func texts vs e : mapped func texts vs e -> gives (json_map func) texts vs e.
Proof.
  intros [[H ->]|(d & t & rest & x & -> & H & Hx & ->)]; constructor; induction H as [|t0 v ts vs H1 H2 IH]; rewrite map_gen_eq.
  - apply yd_over; [reflexivity|constructor].
  - apply yd_line; [reflexivity|]. rewrite H1. now constructor.
  - apply yd_line; [reflexivity|]. rewrite Hx. constructor.
  - cbn [List.app]. apply yd_line; [reflexivity|]. rewrite H1. now constructor.
Qed.
Theorem C99_map_refuted : forall L pf logfd maxfd ws s s' its x cap pipe_buf p func inp mid ok texts vs e out,
  mixed L pf logfd maxfd (StCmd ws) [StFun] s s' its x -> does p inp mid ok -> read_as mid texts ->
  mapped func texts vs e -> written_as vs out ->
  forall ls t, bytes_mrun L logfd maxfd cap pipe_buf s s' its x (mix_begin L logfd maxfd s' its byte_init [CProg p; CFun (obj_fn (json_map func))] inp) ls = Some t ->
  List.concat (items_of (r_out (m_rd t))) = [] /\ (out <> [] -> List.concat (items_of (r_out (m_rd t))) <> out).
Proof.
  intros L pf logfd maxfd ws s s' its x cap pipe_buf p func inp mid ok texts vs e out HL Hd Hr Hm Ho ls t E.
  refine (C98_silent_refuted L pf logfd maxfd ws s s' its x cap pipe_buf p (json_map func) inp mid ok texts vs e out HL Hd Hr _ (mapped_gives _ _ _ _ Hm) Ho ls t E).
  unfold json_map. rewrite map_gen_eq. constructor.
Qed.
Print Assumptions C99_map_refuted.
(** A loop with async for in place of the for loop would do. *)
CoFixpoint amap_gen (func : text -> res pyval) : agen :=
  AAsk (fun o => match o with
                 | None => AEnd EStop
                 | Some l => match func l with Ok v => AGive v (amap_gen func) | Err e => AEnd (ERaise e) end
                 end).
Lemma amapped func texts vs e : mapped func texts vs e -> gives (OAgen (amap_gen func)) texts vs e.
Proof.
  assert (U : amap_gen func = AAsk (fun o => match o with
                 | None => AEnd EStop
                 | Some l => match func l with Ok v => AGive v (amap_gen func) | Err e => AEnd (ERaise e) end
                 end)).
  { assert (X : forall g, g = match g with AAsk k => AAsk k | AGive v k => AGive v k | AEnd e0 => AEnd e0 end) by now intros []. etransitivity; [apply X|]. reflexivity. }
  intros [[H ->]|(d & t & rest & x & -> & H & Hx & ->)]; constructor; induction H as [|t0 v ts vs H1 H2 IH]; rewrite U.
  - apply ay_over. constructor.
  - apply ay_line. rewrite H1. now constructor.
  - apply ay_line. rewrite Hx. constructor.
  - cbn [List.app]. apply ay_line. rewrite H1. now constructor.
Qed.
Theorem C99_async_map : forall L pf logfd maxfd ws s s' its x cap pipe_buf p func inp mid ok texts vs e out,
  mixed L pf logfd maxfd (StCmd ws) [StFun] s s' its x -> does p inp mid ok -> read_as mid texts ->
  mapped func texts vs e -> written_as vs out ->
  forall ls t, bytes_mrun L logfd maxfd cap pipe_buf s s' its x (mix_begin L logfd maxfd s' its byte_init [CProg p; CFun (obj_fn (OAgen (amap_gen func)))] inp) ls = Some t ->
  prefix (List.concat (items_of (r_out (m_rd t)))) out /\
  (ended (r_out (m_rd t)) -> List.concat (items_of (r_out (m_rd t))) = out).
Proof.
  intros L pf logfd maxfd ws s s' its x cap pipe_buf p func inp mid ok texts vs e out HL Hd Hr Hm Ho.
  eapply C98_output_partial; eauto; [now apply amapped with (e := e)|constructor].
Qed.
Print Assumptions C99_async_map.

(** cat | f, f a coroutine that returns the first line, as "x" and the line. *)
Definition one_line : obj := OCoro (CAsk (fun o => CReturn (match o with Some l => VStr (120%N :: l) | None => VNone end))).
Definition kind_run (o : obj) (sched : list mlabel) : option (list got) :=
  let c := StCmd ["cat"%string] in let cs := [StFun] in
  option_map (fun t => r_out (m_rd t)) (bytes_mrun some_limits 63 64 16 9 shell (after_start c cs) (started_its c cs) (started_x c cs)
      (mix_begin some_limits 63 64 (after_start c cs) (started_its c cs) byte_init [CProg cat; CFun (obj_fn o)] [97%N]) sched).
Example C98_nonvacuous :
  let c := StCmd ["cat"%string] in let cs := [StFun] in
  mixed some_limits (fun _ => true) 63 64 c cs shell (after_start c cs) (started_its c cs) (started_x c cs) /\
  does cat [97%N] [97%N] true /\ read_as [97%N] [[97%N]] /\
  gives one_line [[97%N]] [VStr [120%N; 97%N]] EStop /\ works one_line [[97%N]] /\ written_as [VStr [120%N; 97%N]] [120%N; 97%N; 10%N] /\
  kind_run one_line [MProc 0; MProc 0; MProc 0; MProc 0; MPoll 1; MWritable 1; MStart 1; MRun 1; MReadable 1 1; MWake 1; MRun 1; MReadable 1 0; MWake 1; MRun 1; MRun 1; MPush; MPush; MPush; MPush;
       MPoll 1; MWritable 1; MStart 1; MRun 1; MTold 0; MTold 1; MRd LNext; MRd (LReadable 3); MRd LWake; MRd LNext; MRd (LReadable 0); MRd LWake; MRd LNext; MRd (LAtEof true)] = Some [GItem [120%N; 97%N; 10%N]; GItem []; GStop].
Proof.
  split; [apply shell_starts; vm_compute; reflexivity|]. split; [apply does_cat|].
  split. { exists [[97%N]]. split; [|repeat constructor]. split; [repeat constructor; cbn; intros X; intuition discriminate|]. right. split; [reflexivity|]. split; discriminate. }
  split. { econstructor. eapply ret_line. constructor. }
  split; [constructor|]. split. { apply (wa_str _ [120%N; 97%N] _ []); [reflexivity|constructor]. }
  vm_compute. reflexivity.
Qed.

(** A function returning the string "ab", the bytes "a", a for loop, and map of the
    identity. *)
Example C98_refuted_nonvacuous :
  let cat_ends := [MProc 0; MProc 0; MProc 0; MProc 0; MReadable 1 1; MReadable 1 0] in
  let give := [MPoll 1; MWritable 1; MStart 1; MRun 1; MPush; MPush; MPush] in
  let over := [MPoll 1; MWritable 1; MStart 1; MRun 1; MTold 0; MTold 1; MRd LNext] in
  let fin := [MRd LWake; MRd LNext; MRd (LReadable 0); MRd LWake; MRd LNext; MRd (LAtEof true)] in
  kind_run (OStr [97%N; 98%N]) (cat_ends ++ give ++ give ++ over ++ MRd (LReadable 4) :: fin) = Some [GItem [97%N; 10%N; 98%N; 10%N]; GItem []; GStop] /\
  kind_run (OBytes [97%N]) (cat_ends ++ give ++ MPush :: over ++ MRd (LReadable 3) :: fin) = Some [GItem [57%N; 55%N; 10%N]; GItem []; GStop] /\
  kind_run (json_map (fun t => Ok (VStr t))) (cat_ends ++ [MPoll 1; MWritable 1; MStart 1; MRun 1; MTold 0; MRd LNext] ++ [MRd (LReadable 0); MRd LWake; MRd LNext; MRd (LAtEof false)]) = Some [GItem []; GFailed] /\
  mapped (fun t => Ok (VStr t)) [[97%N]] [VStr [97%N]] EStop /\ written_as [VStr [97%N]] [97%N; 10%N].
Proof.
  split; [vm_compute; reflexivity|]. split; [vm_compute; reflexivity|]. split; [vm_compute; reflexivity|]. split.
  - left. split; [repeat constructor|reflexivity].
  - apply (wa_str _ [97%N] _ []); [reflexivity|constructor].
Qed.
