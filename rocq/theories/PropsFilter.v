(** C119: c | filter(func). *)
From Verif Require Import Py RedirModel Os PerformModel PerformSpec RunModel RunSpec RunTopSpec RunEnds PropsRun IterModel IterSpec IterProofs IterOut NetModel NetSpec NetProofs NetTop PropsNet SrcModel Utf8Model Utf8Proofs MixModel MixSpec MixProofs MixTop MixStuck PropsMix KindModel KindSpec KindProofs
 PropsKind FilterModel FilterSpec.

(** Calling filter(func) raises NameError, whatever func is: there is no function to use. *)
Theorem C119_refuted : forall globals builtins func, ~ In "apply_map"%string globals -> ~ In "apply_map"%string builtins -> json_filter globals builtins func = Err NameError.
Proof.
  intros g b func Hg Hb. unfold json_filter, name_found.
  assert (K : forall l, ~ In "apply_map"%string l -> existsb (String.eqb "apply_map") l = false).
  { intros l H. apply not_true_is_false. intros X. apply existsb_exists in X as (n & Hn & X). apply String.eqb_eq in X. now subst n. }
  now rewrite (K g Hg), (K b Hb).
Qed.
Print Assumptions C119_refuted.
(** The names of jsonutils.py *)
Example C119_nonvacuous : ~ In "apply_map"%string ["json"; "map"; "filter"; "from_json"; "to_json"]%string.
Proof. cbn. intuition discriminate. Qed.

Lemma filter_gen_eq func : filter_gen func = SLoop (fun o => match o with
                  | None => SEnd EStop
                  | Some l => match func l with Ok true => SGive (VStr l) (filter_gen func) | Ok false => filter_gen func | Err e => SEnd (ERaise e) end
                  end).
Proof. assert (X : forall g, g = sg_open g) by now intros []. etransitivity; [apply X|]. reflexivity. Qed.
(** The function inside is meant to give the lines for which func holds *)
Theorem C119_meant : forall globals builtins func o texts vs e, json_filter globals builtins func = Ok o -> kept func texts vs e -> gives o texts vs e.
Proof.
  intros g b func o texts vs e Ho (d & rest & -> & F & -> & R). unfold json_filter in Ho. destruct (name_found _ _ _); [|discriminate]. injection Ho as <-. constructor.
  induction F as [|t d (c & Hc) F IH]; rewrite filter_gen_eq.
  - destruct R as [(-> & ->)|(t & r & x & -> & Hx & ->)]; [apply yd_over; [reflexivity|constructor]|]. apply yd_line; [reflexivity|]. rewrite Hx. constructor.
  - cbn [List.app filter]. apply yd_line; [reflexivity|]. unfold holds at 1. rewrite Hc. destruct c; [cbn [map]; now constructor|exact IH].
Qed.
Print Assumptions C119_meant.
(** but if there were an apply_map it would output nothing, like map(func), C99 *)
Theorem C119_loop_refuted : forall globals builtins func o L pf logfd maxfd ws s s' its x cap pipe_buf p inp mid ok texts vs e out,
  json_filter globals builtins func = Ok o ->
  mixed L pf logfd maxfd (StCmd ws) [StFun] s s' its x -> does p inp mid ok -> read_as mid texts ->
  kept func texts vs e -> written_as vs out ->
  forall ls t, bytes_mrun L logfd maxfd cap pipe_buf s s' its x (mix_begin L logfd maxfd s' its byte_init [CProg p; CFun (obj_fn o)] inp) ls = Some t ->
  List.concat (items_of (r_out (m_rd t))) = [] /\ (out <> [] -> List.concat (items_of (r_out (m_rd t))) <> out).
Proof.
  intros g b func o L pf logfd maxfd ws s s' its x cap pipe_buf p inp mid ok texts vs e out Ho HL Hd Hr Hk Hw ls t E.
  refine (C98_silent_refuted L pf logfd maxfd ws s s' its x cap pipe_buf p o inp mid ok texts vs e out HL Hd Hr _ (C119_meant g b func o _ _ _ Ho Hk) Hw ls t E).
  unfold json_filter in Ho. destruct (name_found _ _ _); [|discriminate]. injection Ho as <-. rewrite filter_gen_eq. constructor.
Qed.
Print Assumptions C119_loop_refuted.
(** With async for, and no line 20, it does. *)
CoFixpoint afilter_gen (func : text -> res bool) : agen :=
  AAsk (fun o => match o with
                 | None => AEnd EStop
                 | Some l => match func l with Ok true => AGive (VStr l) (afilter_gen func) | Ok false => afilter_gen func | Err e => AEnd (ERaise e) end
                 end).
Lemma afiltered func texts vs e : kept func texts vs e -> gives (OAgen (afilter_gen func)) texts vs e.
Proof.
  assert (U : afilter_gen func = AAsk (fun o => match o with
                 | None => AEnd EStop
                 | Some l => match func l with Ok true => AGive (VStr l) (afilter_gen func) | Ok false => afilter_gen func | Err e => AEnd (ERaise e) end
                 end)).
  { assert (X : forall g, g = match g with AAsk k => AAsk k | AGive v k => AGive v k | AEnd e0 => AEnd e0 end) by now intros []. etransitivity; [apply X|]. reflexivity. }
  intros (d & rest & -> & F & -> & R). constructor. induction F as [|t d (c & Hc) F IH]; rewrite U.
  - destruct R as [(-> & ->)|(t & r & x & -> & Hx & ->)]; [apply ay_over; constructor|]. apply ay_line. rewrite Hx. constructor.
  - cbn [List.app filter]. apply ay_line. unfold holds at 1. rewrite Hc. destruct c; [cbn [map]; now constructor|exact IH].
Qed.
Theorem C119_async_filter : forall L pf logfd maxfd ws s s' its x cap pipe_buf p func inp mid ok texts vs e out,
  mixed L pf logfd maxfd (StCmd ws) [StFun] s s' its x -> does p inp mid ok -> read_as mid texts ->
  kept func texts vs e -> written_as vs out ->
  forall ls t, bytes_mrun L logfd maxfd cap pipe_buf s s' its x (mix_begin L logfd maxfd s' its byte_init [CProg p; CFun (obj_fn (OAgen (afilter_gen func)))] inp) ls = Some t ->
  prefix (List.concat (items_of (r_out (m_rd t)))) out /\
  (ended (r_out (m_rd t)) -> List.concat (items_of (r_out (m_rd t))) = out).
Proof.
  intros L pf logfd maxfd ws s s' its x cap pipe_buf p func inp mid ok texts vs e out HL Hd Hr Hm Ho.
  eapply C98_output_partial; eauto; [now apply afiltered with (e := e)|constructor].
Qed.
Print Assumptions C119_async_filter.

(** cat | filter(lambda l: l == "a") on the line a: the loop outputs nothing, the
    asynchronous one the line. *)
Definition is_a (t : text) : res bool := Ok (match t with [97%N] => true | _ => false end).
Example C119_async_nonvacuous :
  (forall o, json_filter ["apply_map"%string] [] is_a = Ok o -> o = OGen (filter_gen is_a)) /\
  kept is_a [[97%N]] [VStr [97%N]] EStop /\ written_as [VStr [97%N]] [97%N; 10%N] /\
  kind_run (OAgen (afilter_gen is_a)) [MProc 0; MProc 0; MProc 0; MProc 0; MReadable 1 1; MReadable 1 0; MPoll 1; MWritable 1; MStart 1; MRun 1; MRun 1; MPush; MPush; MPush; MPoll 1; MWritable 1; MStart 1; MRun 1; MRun 1;
       MTold 0; MTold 1; MRd LNext; MRd (LReadable 2); MRd LWake; MRd LNext; MRd (LReadable 0); MRd LWake; MRd LNext; MRd (LAtEof true)] = Some [GItem [97%N; 10%N]; GItem []; GStop].
Proof.
  split; [intros o X; now injection X as <-|]. split.
  - exists [[97%N]], []. split; [reflexivity|]. split; [repeat constructor; now exists true|]. split; [reflexivity|]. now left.
  - split; [apply (wa_str _ [97%N] _ []); [reflexivity|constructor]|]. vm_compute. reflexivity.
Qed.
