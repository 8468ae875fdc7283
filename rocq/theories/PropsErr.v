(** C102: the text of a PipelineError tells which items failed and what they wrote to
    standard error. *)
From Verif Require Import Py PathModel EnvModel RedirModel IterModel Utf8Model Utf8Proofs FinishModel FinishSpec FinishProofs ErrModel ErrSpec ErrProofs.
From Verif Require WorldModel WorldSpec PropsWorld PropsFinish.

(** The text: the kind of error, the pipeline, and one part for each failed item, in the
    order of the pipeline: the command with all that was captured of it, or the function
    with its traceback. *)
Theorem C102_exact : forall k shown l m, error_text k shown l = Ok m ->
  exists h fl ts, heading k h /\ failed_among l fl /\ Forall2 part_of fl ts /\ m = h ++ shown ++ txt ":" ++ [10%N; 10%N] ++ join_with rule ts.
Proof.
  intros k shown l m E. destruct (error_exact k shown l m E) as (fl & ts & A & B & ->). exists (description k ++ txt ": "), fl, ts.
  split; [destruct k; reflexivity|]. split; [exact A|]. split; [exact B|]. rewrite <- !app_assoc. reflexivity.
Qed.
Print Assumptions C102_exact.
Theorem C102_function_shown : forall k shown l m e name tb, error_text k shown l = Ok m -> In e l -> failed_function e name tb -> shows m name /\ shows m tb.
Proof. exact function_shown. Qed.
Print Assumptions C102_function_shown.
(** [its] have come to their end (FinishModel.v): all that a failed process [n] wrote to
    standard error is in the text (as text mode reads it). *)
Theorem C102_stderr_shown : forall f its f' its' k shown l m n it it' e cmd file t, well_formed its -> finish f its = (f', its', None) ->
  nth_error its n = Some it -> nth_error its' n = Some it' -> captures it 2 file -> holds f file t ->
  In e l -> failed_process e cmd it' -> error_text k shown l = Ok m ->
  shows m cmd /\ shows m (txt "stderr content:" ++ [10%N] ++ universal_newlines t ++ [10%N]).
Proof.
  intros f its f' its' k shown l m n it it' e cmd file t W F N1 N2 C H I E M.
  destruct (finish_recorded f its f' its' W F) as (_ & R & _). destruct (R n it it' N1 N2) as [R1 _].
  destruct (R1 2 file C) as (t' & H' & D). destruct H as (b & B1 & B2), H' as (b' & B1' & B2').
  assert (t' = t) as -> by (rewrite B1 in B1'; injection B1' as <-; exact (encode_inj _ _ _ B2' B2)).
  exact (process_shown k shown l m e cmd it' 2 _ M I E D).
Qed.
Print Assumptions C102_stderr_shown.
(** There is a text, unless an fg statement has failed: then str() raises. *)
Theorem C102_text_partial : forall k shown l, (forall e, In e l -> ~ failed_fg e) -> exists m, error_text k shown l = Ok m.
Proof. exact no_fg_fine. Qed.
Print Assumptions C102_text_partial.
Theorem C102_fg_refuted : forall k shown l e, In e l -> failed_fg e -> error_text k shown l = Err TypeError.
Proof. exact fg_raises. Qed.
Print Assumptions C102_fg_refuted.
(** When the event loop has come to rest the output has been captured ... *)
Theorem C102_captured_partial : forall mgr w p, WorldSpec.reachable mgr w -> WorldSpec.quiescent mgr w -> p < WorldModel.w_np w -> WorldSpec.plain w p ->
  WorldModel.p_bad (WorldModel.w_pl w p) = false -> WorldModel.p_items (WorldModel.w_pl w p) <> [] ->
  (forall i, In i (WorldModel.p_items (WorldModel.w_pl w p)) -> WorldSpec.ended_well w i) -> WorldModel.p_cleaned (WorldModel.w_pl w p) = 1.
Proof. exact cleaned_at_rest. Qed.
Print Assumptions C102_captured_partial.
(** ... but wait() raises without it when it is called after the last process is known to
    have ended and before its await_finish task has run. *)
Theorem C102_early_refuted : forall mgr w p w', WorldModel.pl_running w p = false -> WorldModel.pl_failed w p = true ->
  WorldModel.p_cleaned (WorldModel.w_pl w p) = 0 -> WorldModel.step mgr w (WorldModel.LWait p) = Some w' ->
  WorldModel.wt_phase (WorldModel.w_wt w' (WorldModel.w_nw w)) = WorldModel.WDone WorldModel.RFailed /\ WorldModel.p_cleaned (WorldModel.w_pl w' p) = 0.
Proof. exact early_wait. Qed.
Print Assumptions C102_early_refuted.

(** ls fails and says so; a function fails; grep succeeds. *)
Definition err_redirs (k : nat) : redirects := [(2, mkRedirect 2 (SInt 7) O_WRONLY default_mode (Some (PString k)) false)].
Definition err_files : fs := PropsFinish.files [(0, [110%N; 111%N; 13%N; 10%N]); (1, [])].
Definition err_its : list item := [mkItem false (err_redirs 0) []; mkItem false (err_redirs 1) []].
Definition err_done : list item := snd (fst (finish err_files err_its)).
Definition err_items : list eitem :=
  [EProc (txt "ls") (nth 0 err_done (mkItem true [] [])) false 2; EFun (txt "m.f") 5 (txt "m.f()") false true (Some (txt "ValueError"));
   EProc (txt "grep") (nth 1 err_done (mkItem true [] [])) false 0].
Definition err_text : text :=
  txt "Pipeline failed: ls | m.f() | grep:" ++ [10%N; 10%N] ++ txt "ls" ++ [10%N] ++ txt "stderr content:" ++ [10%N] ++ txt "no" ++ [10%N; 10%N] ++
  [10%N; 10%N] ++ txt "================================" ++ [10%N; 10%N] ++ txt "m.f (5, for m.f(), stopped)" ++ [10%N] ++ txt "ValueError".
Example C102_nonvacuous :
  well_formed err_its /\ snd (finish err_files err_its) = None /\ captures (mkItem false (err_redirs 0) []) 2 0 /\ holds err_files 0 [110%N; 111%N; 13%N; 10%N] /\
  error_text PFailed (txt "ls | m.f() | grep") err_items = Ok err_text /\
  failed_among err_items (firstn 2 err_items) /\ (forall e, In e err_items -> ~ failed_fg e) /\
  error_text PFailed (txt "fg") [EFg false true] = Err TypeError.
Proof.
  split; [repeat constructor; cbn; intuition|]. split; [vm_compute; reflexivity|].
  split; [split; [reflexivity|]; eexists; split; reflexivity|]. split; [eexists; split; vm_compute; reflexivity|].
  split; [vm_compute; reflexivity|]. split; [|split; [|reflexivity] ].
  - apply FA_yes; [left; do 2 eexists; exists 2%N; split; [reflexivity|discriminate]|]. apply FA_yes; [right; left; do 2 eexists; do 3 eexists; reflexivity|].
    apply FA_no; [|constructor]. intros [(c & i & s & E & X)|[(n & t & fd & u & en & E)|E] ]; [injection E; intros; subst; congruence|discriminate..].
  - intros e [<-|[<-|[<-|[] ] ] ]; discriminate.
Qed.
(** The race can happen: two events of the loop in this order. *)
Definition early_trace : list WorldModel.label :=
  [WorldModel.LStart [WorldModel.SProc 10] true false; WorldModel.LChild 10 (WorldModel.CExit 3); WorldModel.LSigchld; WorldModel.LReap 10; WorldModel.LReapEnd].
Example C102_early_nonvacuous :
  PropsWorld.after WorldModel.Signalfd early_trace (fun w => negb (WorldModel.pl_running w 0) && WorldModel.pl_failed w 0 && (WorldModel.p_cleaned (WorldModel.w_pl w 0) =? 0)) = true /\
  PropsWorld.after WorldModel.Signalfd (early_trace ++ [WorldModel.LWait 0]) (fun w => PropsWorld.phase_is w 0 (WorldModel.WDone WorldModel.RFailed)) = true /\
  PropsWorld.after WorldModel.Signalfd (early_trace ++ [WorldModel.LTask 0]) (fun w => WorldModel.p_cleaned (WorldModel.w_pl w 0) =? 1) = true.
Proof. vm_compute. auto. Qed.
